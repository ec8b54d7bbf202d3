(** C72: the times of the stored slices and the steps and edges of the stored Green's function. *)
From Coq Require Import Reals ZArith NArith Bool Lra Lia List.
From Flocq Require Import Core IEEE754.BinarySingleNaN Relative Plus_error.
From Verif Require Import AntennaModel AntennaSpec AntennaProps DiscreteModel DiscreteSpec DiscreteProps.
Import ListNotations.
Local Open Scope R_scope.
Local Notation fexp32 := (FLT_exp (-149) 24).
Local Notation fexp64 := (FLT_exp (-1074) 53).
Local Notation rnd32 := (round radix2 fexp32 ZnearestE).
Local Notation rnd64 := (round radix2 fexp64 ZnearestE).
Local Existing Instance valid32.
Local Existing Instance valid64.

Lemma relative64_sharp x : bpow radix2 (-1022) <= Rabs x -> Rabs (rnd64 x - x) <= Rabs x * / 2 ^ 53.
Proof.
  intros Hx. pose proof (relative_error_N_FLT radix2 (-1074) 53 ltac:(lia) (fun z => negb (Z.even z)) x Hx) as H. eapply Rle_trans; [exact H|].
  rewrite Rmult_comm. apply Rmult_le_compat_l; [apply Rabs_pos|]. change (- (53) + 1)%Z with (-52)%Z. rewrite bpow_powerRZ. unfold powerRZ. change (Pos.to_nat 52) with 52%nat. change (IZR radix2) with 2. right. change (2 ^ 53) with (2 * 2 ^ 52). set (x2 := 2 ^ 52). assert (0 < x2) by (apply pow_lt; lra). field. lra.
Qed.
Lemma plus64 x y : generic_format radix2 fexp64 x -> generic_format radix2 fexp64 y -> Rabs (rnd64 (x + y) - (x + y)) <= Rabs (x + y) * / 2 ^ 53.
Proof.
  intros Hx Hy. destruct (Rle_or_lt (bpow radix2 (-1022)) (Rabs (x + y))) as [H|H]; [apply relative64_sharp; exact H|].
  rewrite round_generic; [replace (x + y - (x + y)) with 0 by ring; rewrite Rabs_R0; apply Rmult_le_pos; [apply Rabs_pos|]|typeclasses eauto|].
  - apply Rlt_le, Rinv_0_lt_compat, pow_lt. lra.
  - apply FLT_format_plus_small; [reflexivity|assumption|assumption|]. apply Rlt_le. eapply Rlt_le_trans; [exact H|]. apply bpow_le. lia.
Qed.
Lemma plus_value64 (x y : f64) : is_finite x = true -> is_finite y = true -> Rabs (B2R x + B2R y) <= bpow radix2 1000 -> has_value (Bplus mode_NE x y) (rnd64 (B2R x + B2R y)).
Proof.
  intros Fx Fy Hb. pose proof (Bplus_correct 53 1024 _ _ mode_NE x y Fx Fy) as HB. change (round_mode mode_NE) with ZnearestE in HB. change (SpecFloat.fexp 53 1024) with fexp64 in HB.
  rewrite Rlt_bool_true in HB by (apply below_64; exact Hb). destruct HB as (E & F & _). exact (conj F E).
Qed.

Lemma whole_bound k : INR k <= 2 ^ 24 + 1 + / 8 -> INR k <= 2 ^ 24 + 1.
Proof.
  assert (2 ^ 24 + 1 = IZR 16777217) as -> by (simpl pow; lra). rewrite INR_IZR_INZ. intros H. assert (IZR (Z.of_nat k) < IZR (16777217 + 1)) as L by (rewrite plus_IZR; lra).
  apply lt_IZR in L. apply IZR_le. lia.
Qed.

Section times.
Context (timestep : f64) (t_end : f32).
Notation tau := (B2R timestep). Notation T := (B2R t_end).
Context (Ft : is_finite timestep = true) (Ht : 0 < tau <= 2 ^ 100) (Fe : is_finite t_end = true) (HT : 0 <= T <= 2 ^ 24 * tau).
Definition near (k : nat) (x : R) : Prop := Rabs (x - INR k * tau) <= INR k * INR k * tau * / 2 ^ 53.

Lemma near_small k x : INR k <= 2 ^ 24 + 2 -> near k x -> Rabs (x - INR k * tau) <= tau / 8.
Proof using Ht.
  intros Hk H. eapply Rle_trans; [exact H|]. assert (0 <= INR k) by apply pos_INR. assert (INR k * INR k <= (2 ^ 24 + 2) * (2 ^ 24 + 2)) as H2 by (apply Rmult_le_compat; lra).
  assert ((2 ^ 24 + 2) * (2 ^ 24 + 2) * / 2 ^ 53 <= / 8) as H3. { simpl pow. lra. }
  assert (INR k * INR k * / 2 ^ 53 <= / 8) as H4. { eapply Rle_trans; [|exact H3]. apply Rmult_le_compat_r; [|exact H2]. apply Rlt_le, Rinv_0_lt_compat, pow_lt. lra. }
  replace (INR k * INR k * tau * / 2 ^ 53) with (INR k * INR k * / 2 ^ 53 * tau) by ring. replace (tau / 8) with (/ 8 * tau) by field. apply Rmult_le_compat_r; lra.
Qed.
Lemma next_time k (c : f64) : is_finite c = true -> INR k <= 2 ^ 24 + 1 -> near k (B2R c) -> is_finite (Bplus mode_NE c timestep) = true /\ near (S k) (B2R (Bplus mode_NE c timestep)).
Proof using Ft Ht.
  intros Fc Hk Hn. pose proof (near_small k _ ltac:(lra) Hn) as Hs. apply Rabs_le_inv in Hs. pose proof (pos_INR k) as K0. unfold near in Hn. apply Rabs_le_inv in Hn.
  assert (0 <= INR k * tau <= (2 ^ 24 + 1) * tau) as [A1 A2] by (split; [apply Rmult_le_pos|apply Rmult_le_compat_r]; lra).
  assert (0 <= B2R c + tau) as P0 by lra.
  assert (2 ^ 25 * 2 ^ 100 = bpow radix2 125) as Ebig. { rewrite <- pow_add. rewrite bpow_powerRZ. reflexivity. }
  assert (B2R c + tau <= bpow radix2 125) as P1. { rewrite <- Ebig. assert (2 ^ 25 = 33554432) as E25 by (simpl pow; lra). rewrite E25. assert (2 ^ 24 = 16777216) as E24 by (simpl pow; lra). rewrite E24 in A2. set (B := 2 ^ 100) in *. clearbody B. lra. }
  destruct (plus_value64 c timestep Fc Ft) as [F V]. { rewrite Rabs_pos_eq by lra. eapply Rle_trans; [exact P1|apply bpow_le; lia]. }
  split; [exact F|]. unfold near. rewrite V. pose proof (plus64 _ _ (format64 c) (format64 timestep)) as HE. rewrite (Rabs_pos_eq (B2R c + tau)) in HE by lra. apply Rabs_le_inv in HE.
  set (n := rnd64 (B2R c + tau)) in *. rewrite S_INR. set (m := INR k) in *. set (x := B2R c) in *. set (u := / 2 ^ 53) in *.
  assert (0 < u) as U0 by (apply Rinv_0_lt_compat, pow_lt; lra). assert (u * m <= 1) as U1.
  { apply Rmult_le_reg_l with (2 ^ 53); [apply pow_lt; lra|]. rewrite <- Rmult_assoc. unfold u. rewrite Rinv_r by (apply pow_nonzero; lra). assert (2 ^ 24 + 1 <= 2 ^ 53) by (simpl pow; lra). lra. }
  assert (m * m * tau * u <= m * tau) as M1. { replace (m * m * tau * u) with (u * m * (m * tau)) by ring. rewrite <- (Rmult_1_l (m * tau)) at 2. apply Rmult_le_compat_r; lra. }
  assert (x + tau <= 2 * (m * tau) + tau) as X1 by lra. assert ((x + tau) * u <= (2 * (m * tau) + tau) * u) as X2 by (apply Rmult_le_compat_r; lra).
  replace ((m + 1) * (m + 1) * tau * u) with (m * m * tau * u + (2 * (m * tau) + tau) * u) by ring. apply Rabs_le. lra.
Qed.

Lemma time_loop_ok fuel : forall k (c : f64), is_finite c = true -> near k (B2R c) -> (k = O \/ (INR k - 1) * tau <= T + tau / 8) -> T / tau + 3 <= INR fuel + INR k ->
  exists ts, time_loop fuel timestep t_end c = Some ts /\
    (forall j d, nth_error ts j = Some d -> is_finite d = true /\ near (k + j) (B2R d) /\ B2R d <= T) /\
    T - tau / 8 < INR (k + length ts) * tau.
Proof using Ft Ht Fe HT.
  induction fuel as [|fuel IH]; intros k c Fc Hn Hk Hf.
  - exfalso. cbn [INR] in Hf. assert (T / tau * tau = T) as E by (field; lra). assert (0 <= T / tau) by (apply Rmult_le_pos; [lra|apply Rlt_le, Rinv_0_lt_compat; lra]). set (q := T / tau) in *. destruct Hk as [->|Hk]; [cbn [INR] in Hf; lra|]. set (m := INR k) in *. clearbody m q.
    assert ((q + 3) * tau <= (0 + m) * tau) by (apply Rmult_le_compat_r; lra). lra.
  - assert (INR k <= 2 ^ 24 + 1 + / 8) as Hkb. { destruct Hk as [->|Hk]; [cbn [INR]; assert (0 < 2 ^ 24) by (apply pow_lt; lra); lra|]. apply Rmult_le_reg_r with tau; [lra|]. lra. }
    assert (INR k <= 2 ^ 24 + 1) as Hkc by (apply whole_bound; exact Hkb).
    cbn [time_loop]. destruct (to_double_value t_end Fe) as [D1 D2]. pose proof (near_small k _ ltac:(lra) Hn) as Hs. apply Rabs_le_inv in Hs.
    rewrite Bleb_correct by assumption. rewrite D2. destruct (Rle_bool_spec (B2R c) T) as [L|L].
    + destruct (next_time k c Fc Hkc Hn) as [F' N']. destruct (IH (S k) (Bplus mode_NE c timestep) F' N') as (ts & E & A & B).
      { right. rewrite S_INR. replace (INR k + 1 - 1) with (INR k) by ring. lra. }
      { rewrite S_INR in *. lra. }
      rewrite E. exists (c :: ts). split; [reflexivity|]. split.
      * intros [|j] d Hd; cbn [nth_error] in Hd. { injection Hd as <-. rewrite Nat.add_0_r. split; [exact Fc|]. split; [exact Hn|exact L]. }
        specialize (A j d Hd). replace (k + S j)%nat with (S k + j)%nat by lia. exact A.
      * cbn [length]. replace (k + S (length ts))%nat with (S k + length ts)%nat by lia. exact B.
    + exists []. split; [reflexivity|]. split; [intros [|j] d Hd; discriminate|]. cbn [length]. rewrite Nat.add_0_r. lra.
Qed.
End times.

(** The k-th slice is stored for the time k times the timestep up to rounding; there is always a slice at 0; slices are stored up to the end time, except that the
    one at the end time may be missing by rounding (see below). *)
Theorem C72_times fuel timestep t_end : is_finite timestep = true -> 0 < B2R timestep <= 2 ^ 100 -> is_finite t_end = true -> 0 <= B2R t_end <= 2 ^ 24 * B2R timestep ->
  B2R t_end / B2R timestep + 3 <= INR fuel ->
  exists ts, slice_times fuel timestep t_end = Some ts /\ (0 < length ts)%nat /\
    (forall k t, nth_error ts k = Some t -> is_finite t = true /\ Rabs (B2R t - INR k * B2R timestep) <= INR k * INR k * B2R timestep * / 2 ^ 53 /\ B2R t <= B2R t_end) /\
    (INR (length ts) - 1) * B2R timestep - B2R timestep / 8 <= B2R t_end < INR (length ts) * B2R timestep + B2R timestep / 8.
Proof.
  intros Ft Ht Fe HT Hfuel. destruct (time_loop_ok timestep t_end Ft Ht Fe HT fuel O (B754_zero false)) as (ts & E & A & B).
  { reflexivity. } { unfold near. cbn [B2R INR]. replace (0 - 0 * B2R timestep) with 0 by ring. rewrite Rabs_R0. right. ring. } { left. reflexivity. } { cbn [INR]. lra. }
  assert (0 < length ts)%nat as Hpos.
  { destruct fuel as [|fuel]; [discriminate|]. unfold slice_times in E. cbn [time_loop] in E. destruct (to_double_value t_end Fe) as [D1 D2]. rewrite Bleb_correct in E by (exact D1 || reflexivity). cbn [B2R] in E. rewrite D2, Rle_bool_true in E by lra.
    destruct (time_loop fuel timestep t_end _) as [l|]; [|discriminate]. injection E as <-. cbn [length]. lia. }
  exists ts. split; [exact E|]. split; [exact Hpos|]. cbn [Nat.add] in *. split.
  - intros k t Hk. destruct (A k t Hk) as (A1 & A2 & A3). split; [exact A1|]. split; [exact A2|exact A3].
  - split; [|lra]. destruct (nth_error ts (length ts - 1)) as [t|] eqn:En. 2: { apply nth_error_None in En. lia. }
    destruct (A _ t En) as (A1 & A2 & A3).
    (* the index of the last slice is small *)
    assert (forall j d, nth_error ts j = Some d -> INR j <= 2 ^ 24 + 1) as Hb.
    { induction j as [|j IHj]; intros d Hd. { cbn [INR]. assert (0 < 2 ^ 24) by (apply pow_lt; lra). lra. }
      destruct (nth_error ts j) as [d'|] eqn:Ed. 2: { apply nth_error_None in Ed. assert (nth_error ts (S j) <> None) as Hne by (rewrite Hd; discriminate). apply nth_error_Some in Hne. lia. }
      specialize (IHj d' eq_refl). destruct (A (S j) d Hd) as (_ & N2 & N3). pose proof (near_small timestep Ht (S j) (B2R d) ltac:(rewrite S_INR; lra) N2) as Ns. apply Rabs_le_inv in Ns.
      assert (INR (S j) * B2R timestep <= (2 ^ 24 + / 8) * B2R timestep) as L by lra. apply Rmult_le_reg_r in L; [|lra]. lra. }
    pose proof (Hb _ _ En) as Hk. pose proof (near_small timestep Ht (length ts - 1) (B2R t) ltac:(lra) A2) as Ns. apply Rabs_le_inv in Ns. rewrite minus_INR in Ns by lia. change (INR 1) with 1 in Ns. lra.
Qed.

(** ** Concrete case: the timestep of meep at resolution 9 (the double nearest to 1/18) and the end time 1.  18 timesteps are at most the end time, but the
    sum of 18 of them is not, and the step size that is stored is 1/17. *)
Definition eighteenth : f64 := binary_normalize 53 1024 _ _ mode_NE 8006399337547548 (-57) false.
Lemma eighteenth_value : has_value eighteenth (8006399337547548 * / 144115188075855872).
Proof. split; [reflexivity|]. rewrite <- (SF2R_B2SF 53 1024). replace (B2SF eighteenth) with (SpecFloat.S754_finite false 8006399337547548 (-57)) by (vm_compute; reflexivity). unfold SF2R, F2R. cbn [Fnum Fexp cond_Zopp]. change (bpow radix2 (-57)) with (/ IZR (2 ^ 57)). change (2 ^ 57)%Z with 144115188075855872%Z. lra. Qed.
Example C72_times_nonvacuous : is_finite eighteenth = true /\ 0 < B2R eighteenth <= 2 ^ 100 /\ is_finite one32 = true /\ 0 <= B2R one32 <= 2 ^ 24 * B2R eighteenth /\
  B2R one32 / B2R eighteenth + 3 <= INR 30.
Proof.
  destruct eighteenth_value as [F V]. destruct one_value as [F1 V1]. rewrite V, V1. split; [exact F|]. assert (1 <= 2 ^ 100) by (apply pow_R1_Rle; lra). split; [lra|]. split; [exact F1|]. split; [simpl pow; lra|].
  change (INR 30) with (INR (Pos.to_nat 30)). rewrite INR_IPR. change (IPR 30) with 30. unfold Rdiv. rewrite Rinv_mult, Rinv_inv. 
  assert (/ 8006399337547548 * 144115188075855872 <= 19) as L. { apply Rmult_le_reg_l with 8006399337547548; [lra|]. rewrite <- Rmult_assoc, Rinv_r by lra. lra. } lra.
Qed.
Theorem C72_last_slice_refuted : exists timestep t_end ts, is_finite timestep = true /\ is_finite t_end = true /\ slice_times 30 timestep t_end = Some ts /\
  INR (length ts) * B2R timestep <= B2R t_end /\
  has_value (step32 zero32 t_end (N.of_nat (length ts))) (15790321 * / 268435456) /\ B2R timestep * (21 / 20) < 15790321 * / 268435456.
Proof.
  destruct eighteenth_value as [F V]. destruct one_value as [F1 V1].
  assert (match slice_times 30 eighteenth one32 with Some ts => length ts = 18%nat | None => False end) as El by (vm_compute; reflexivity).
  destruct (slice_times 30 eighteenth one32) as [l|] eqn:Es; [|contradiction]. exists eighteenth, one32, l. split; [exact F|]. split; [exact F1|]. split; [exact Es|]. rewrite El, V, V1.
  split. { change (INR 18) with (INR (Pos.to_nat 18)). rewrite INR_IPR. change (IPR 18) with 18. lra. } split; [|lra].
  split; [vm_compute; reflexivity|]. rewrite <- (SF2R_B2SF 24 128). replace (B2SF (step32 zero32 one32 (N.of_nat 18))) with (SpecFloat.S754_finite false 15790321 (-28)) by (vm_compute; reflexivity).
  unfold SF2R, F2R. cbn [Fnum Fexp cond_Zopp]. change (bpow radix2 (-28)) with (/ IZR (2 ^ 28)). change (2 ^ 28)%Z with 268435456%Z. lra.
Qed.

(** * The fields that are stored *)
Lemma advance_ok (clock : nat -> f64) M (t : f64) : is_finite t = true -> (forall n, (n <= M)%nat -> is_finite (clock n) = true) -> B2R t <= B2R (clock M) ->
  forall fuel n, (n <= M)%nat -> (M - n < fuel)%nat -> exists n', advance64 fuel clock n t = Some n' /\ (n <= n' <= M)%nat /\ B2R t <= B2R (clock n') /\ forall m, (n <= m < n')%nat -> B2R (clock m) < B2R t.
Proof.
  intros Ft Fc HM. induction fuel as [|fuel IH]; intros n Hn Hf; [lia|]. cbn [advance64]. rewrite (Bltb_correct 53 1024 (clock n) t (Fc n Hn) Ft). destruct (Rlt_bool_spec (B2R (clock n)) (B2R t)) as [L|L].
  - assert (n <> M) as Hne by (intros ->; lra). destruct (IH (S n) ltac:(lia) ltac:(lia)) as (n' & E & B & C & D). exists n'. split; [exact E|]. split; [lia|]. split; [exact C|]. intros m Hm. destruct (Nat.eq_dec m n) as [->|Hmn]; [exact L|apply D; lia].
  - exists n. split; [reflexivity|]. split; [lia|]. split; [exact L|]. intros m Hm. lia.
Qed.
Lemma main_loop_ok (clock : nat -> f64) M timestep t_end mfuel : is_finite timestep = true -> 0 < B2R timestep <= 2 ^ 100 -> is_finite t_end = true -> (forall n, (n <= M)%nat -> is_finite (clock n) = true) -> B2R t_end <= B2R (clock M) -> (M < mfuel)%nat ->
  forall fuel ts (c : f64) n, time_loop fuel timestep t_end c = Some ts -> (forall j d, nth_error ts j = Some d -> is_finite d = true) -> 0 <= B2R c -> (n <= M)%nat -> (forall m, (m < n)%nat -> B2R (clock m) < B2R c) ->
  exists l, main_loop64 fuel mfuel clock timestep t_end c n = Some l /\ map fst l = ts /\
    forall k t n', nth_error l k = Some (t, n') -> B2R t <= B2R (clock n') /\ forall m, (m < n')%nat -> B2R (clock m) < B2R t.
Proof.
  intros Fs [Hs Hs2] Fe Fc HM Hmf. induction fuel as [|fuel IH]; intros ts c n E Hf H0 Hn Hm; [discriminate|]. cbn [time_loop main_loop64] in *.
  destruct (Bleb c (to_double t_end)) eqn:L. 2: { injection E as <-. exists []. split; [reflexivity|]. split; [reflexivity|]. intros [|k]; discriminate. }
  destruct (time_loop fuel timestep t_end (Bplus mode_NE c timestep)) as [ts'|] eqn:E'; [|discriminate]. injection E as <-.
  pose proof (Hf O c eq_refl) as Fcc. destruct (to_double_value t_end Fe) as [D1 D2]. rewrite Bleb_correct in L by assumption. rewrite D2 in L. assert (B2R c <= B2R t_end) as Lc by (destruct (Rle_bool_spec (B2R c) (B2R t_end)); [assumption|discriminate]).
  destruct (advance_ok clock M c Fcc Fc ltac:(lra) mfuel n Hn ltac:(lia)) as (n' & A & B & C & D). rewrite A.
  assert (forall m, (m < n')%nat -> B2R (clock m) < B2R c) as Hm'. { intros m Hmm. destruct (Nat.lt_ge_cases m n) as [H|H]; [apply Hm; exact H|apply D; lia]. }
  destruct (plus_value64 c timestep Fcc Fs) as [Fp Vp].
  { rewrite Rabs_pos_eq by lra. pose proof (finite_below t_end) as Hfb. apply Rabs_lt_inv in Hfb. assert (2 ^ 100 = bpow radix2 100) as E100 by (rewrite bpow_powerRZ; reflexivity). rewrite E100 in Hs2.
    assert (bpow radix2 100 <= bpow radix2 128) by (apply bpow_le; lia). assert (2 * bpow radix2 128 = bpow radix2 129) by (pose proof (bpow_half 129) as H'; change (129 - 1)%Z with 128%Z in H'; lra). assert (bpow radix2 129 <= bpow radix2 1000) by (apply bpow_le; lia). lra. }
  assert (B2R c <= B2R (Bplus mode_NE c timestep)) as Hle. { rewrite Vp. apply round_ge_generic; [typeclasses eauto|typeclasses eauto|apply format64|lra]. }
  destruct (IH ts' (Bplus mode_NE c timestep) n' E' (fun j d Hd => Hf (S j) d Hd)) as (l & El & Ml & Hl); [lra|lia| |].
  { intros m Hmm. specialize (Hm' m Hmm). lra. }
  rewrite El. exists ((c, n') :: l). split; [reflexivity|]. cbn [map fst]. split; [rewrite Ml; reflexivity|]. intros [|k] t q Hq; cbn [nth_error] in Hq.
  - injection Hq as <- <-. split; assumption.
  - exact (Hl k t q Hq).
Qed.
(** Slice [k] holds the field of the first step of meep that is not before the slice's time, for every clock that reaches the end time. *)
Theorem C72_stored_fields fuel mfuel clock M timestep t_end : is_finite timestep = true -> 0 < B2R timestep <= 2 ^ 100 -> is_finite t_end = true -> 0 <= B2R t_end <= 2 ^ 24 * B2R timestep ->
  B2R t_end / B2R timestep + 3 <= INR fuel -> (forall n, (n <= M)%nat -> is_finite (clock n) = true) -> B2R t_end <= B2R (clock M) -> (M < mfuel)%nat ->
  exists ts l, slice_times fuel timestep t_end = Some ts /\ stored_slices fuel mfuel clock timestep t_end = Some l /\ map fst l = ts /\
    forall k t n, nth_error l k = Some (t, n) -> B2R t <= B2R (clock n) /\ forall m, (m < n)%nat -> B2R (clock m) < B2R t.
Proof.
  intros Ft Ht Fe HT Hfuel Fc HM Hmf. destruct (C72_times fuel timestep t_end Ft Ht Fe HT Hfuel) as (ts & E & _ & A & _). exists ts.
  destruct (main_loop_ok clock M timestep t_end mfuel Ft Ht Fe Fc HM Hmf fuel ts (B754_zero false) 0 E) as (l & El & Ml & Hl).
  { intros j d Hd. exact (proj1 (A j d Hd)). } { cbn [B2R]. lra. } { lia. } { intros m Hm. lia. }
  exists l. split; [exact E|]. split; [exact El|]. split; [exact Ml|exact Hl].
Qed.
(** meep's clock. *)
Lemma clock_value dt n : reasonable dt -> (N.of_nat n <= 2 ^ 24)%N -> is_finite (meep_clock dt n) = true /\ Rabs (B2R (meep_clock dt n) - INR n * B2R dt) <= B2R dt / 8.
Proof.
  intros [Fd [D1 D2]] Hn. destruct (of_size64_value _ Hn) as [Fn Vn]. assert (real (N.of_nat n) = INR n) as En by (unfold real; rewrite nat_N_Z, <- INR_IZR_INZ; reflexivity). rewrite En in Vn.
  assert (0 < B2R dt) as D0 by (pose proof (bpow_gt_0 radix2 (-100)); lra). assert (0 <= INR n) as N0 by apply pos_INR.
  assert (INR n <= bpow radix2 24) as N1. { rewrite <- En. unfold real. change (bpow radix2 24) with (IZR (2 ^ 24)). apply IZR_le. lia. }
  assert (0 <= INR n * B2R dt) as P0 by (apply Rmult_le_pos; lra).
  assert (INR n * B2R dt <= bpow radix2 124) as P1. { change 124%Z with (24 + 100)%Z. rewrite bpow_plus. apply Rmult_le_compat; lra. }
  pose proof (Bmult_correct 53 1024 _ _ mode_NE (of_size64 (N.of_nat n)) dt) as HB. change (round_mode mode_NE) with ZnearestE in HB. change (SpecFloat.fexp 53 1024) with fexp64 in HB. rewrite Vn in HB.
  rewrite Rlt_bool_true in HB. 2: { apply below_64. rewrite Rabs_pos_eq by lra. eapply Rle_trans; [exact P1|apply bpow_le; lia]. }
  destruct HB as (E & F & _). rewrite Fn, Fd in F. split; [exact F|]. unfold meep_clock. rewrite E.
  assert (bpow radix2 24 * / 2 ^ 53 <= / 8) as Hu. { change (bpow radix2 24) with (IZR (2 ^ 24)). change (2 ^ 24)%Z with 16777216%Z. simpl pow. lra. }
  destruct (Nat.eq_dec n 0) as [->|Hn0]. { cbn [INR]. rewrite Rmult_0_l, round_0 by typeclasses eauto. rewrite Rminus_0_r, Rabs_R0. lra. }
  assert (1 <= INR n) as N2 by (apply (le_INR 1); lia).
  pose proof (relative64_sharp (INR n * B2R dt)) as H. rewrite (Rabs_pos_eq (INR n * B2R dt)) in H by lra. eapply Rle_trans; [apply H|].
  - apply Rle_trans with (bpow radix2 (-100)); [apply bpow_le; lia|]. apply Rle_trans with (1 * B2R dt); [lra|]. apply Rmult_le_compat_r; lra.
  - assert (0 < / 2 ^ 53) as U0 by (apply Rinv_0_lt_compat, pow_lt; lra). set (u := / 2 ^ 53) in *. replace (INR n * B2R dt * u) with (INR n * u * B2R dt) by ring. replace (B2R dt / 8) with (/ 8 * B2R dt) by field.
    apply Rmult_le_compat_r; [lra|]. eapply Rle_trans; [|exact Hu]. apply Rmult_le_compat_r; lra.
Qed.
(** If a slice is stored in every step of meep, slice [k] holds the field of step [k] or of the step after it. *)
Theorem C72_same_timestep fuel mfuel dt t_end M : reasonable dt -> is_finite t_end = true -> 0 <= B2R t_end <= (INR M - 1) * B2R dt -> (N.of_nat M <= 2 ^ 24)%N -> (M < mfuel)%nat -> B2R t_end / B2R dt + 3 <= INR fuel ->
  exists l, stored_slices fuel mfuel (meep_clock dt) dt t_end = Some l /\ (0 < length l)%nat /\ forall k t n, nth_error l k = Some (t, n) -> n = k \/ n = S k.
Proof.
  intros Hd Fe [T0 T1] HM Hmf Hfuel. pose proof Hd as [Fd [D1 D2]]. assert (0 < B2R dt) as D0 by (pose proof (bpow_gt_0 radix2 (-100)); lra).
  assert (0 < B2R dt <= 2 ^ 100) as Hdt. { split; [exact D0|]. eapply Rle_trans; [exact D2|]. right. rewrite bpow_powerRZ. reflexivity. }
  assert (INR M <= 2 ^ 24) as M1. { rewrite INR_IZR_INZ. replace (2 ^ 24) with (IZR 16777216) by (simpl pow; lra). apply IZR_le. lia. }
  assert (B2R t_end <= 2 ^ 24 * B2R dt) as T2. { eapply Rle_trans; [exact T1|]. apply Rmult_le_compat_r; lra. }
  destruct (clock_value dt M Hd HM) as [FM VM]. apply Rabs_le_inv in VM.
  destruct (C72_stored_fields fuel mfuel (meep_clock dt) M dt t_end Fd Hdt Fe (conj T0 T2) Hfuel) as (ts & l & E & El & Ml & Hl); [|lra|exact Hmf|].
  { intros n Hn. apply clock_value; [exact Hd|]. lia. }
  destruct (C72_times fuel dt t_end Fd Hdt Fe (conj T0 T2) Hfuel) as (ts' & E' & Hpos & A & [B _]). rewrite E in E'. injection E' as <-. assert (length l = length ts) as Hlen by (rewrite <- Ml, map_length; reflexivity).
  exists l. split; [exact El|]. split; [lia|]. intros k t n Hk.
  assert (nth_error ts k = Some t) as Ht by (rewrite <- Ml, nth_error_map, Hk; reflexivity). assert (k < length ts)%nat as Hkl by (apply nth_error_Some; rewrite Ht; discriminate).
  assert (k < M)%nat as HkM. { assert ((INR (length ts) - 1 - / 8) * B2R dt <= (INR M - 1) * B2R dt) as L by lra. apply Rmult_le_reg_r in L; [|lra]. assert (INR (length ts) < INR (S M)) as L2 by (rewrite S_INR; lra). apply INR_lt in L2. lia. }
  destruct (A k t Ht) as (_ & An & _). assert (INR k <= 2 ^ 24 + 2) as Kb. { assert (INR k <= INR M) by (apply le_INR; lia). lra. }
  pose proof (near_small dt Hdt k (B2R t) Kb An) as Ns. apply Rabs_le_inv in Ns. destruct (Hl k t n Hk) as [H1 H2].
  destruct (Nat.lt_ge_cases n k) as [L|L].
  - exfalso. destruct (clock_value dt n Hd ltac:(lia)) as [_ V]. apply Rabs_le_inv in V. assert (INR n + 1 <= INR k) as L2 by (rewrite <- S_INR; apply le_INR; lia). assert ((INR n + 1) * B2R dt <= INR k * B2R dt) by (apply Rmult_le_compat_r; lra). lra.
  - destruct (Nat.lt_ge_cases (S k) n) as [L2|L2]; [|lia]. exfalso. specialize (H2 (S k) L2). destruct (clock_value dt (S k) Hd ltac:(lia)) as [_ V]. apply Rabs_le_inv in V. rewrite S_INR in V. lra.
Qed.
Example C72_same_timestep_nonvacuous : reasonable eighteenth /\ 0 <= B2R one32 <= (INR 20 - 1) * B2R eighteenth /\ B2R one32 / B2R eighteenth + 3 <= INR 30.
Proof.
  destruct eighteenth_value as [F V]. destruct one_value as [F1 V1]. destruct C72_times_nonvacuous as (_ & _ & _ & _ & H). split; [|split; [|exact H]].
  - split; [exact F|]. rewrite V. assert (bpow radix2 (-100) <= / 1024) as Hm. { change (/ 1024) with (bpow radix2 (-10)). apply bpow_le. lia. } assert (1 <= bpow radix2 100) as Hp. { change 1 with (bpow radix2 0). apply bpow_le. lia. } lra.
  - rewrite V, V1. change (INR 20) with (INR (Pos.to_nat 20)). rewrite INR_IPR. change (IPR 20) with 20. lra.
Qed.
(** It can be the step after it: at resolution 9 slice 6 holds the field of step 7. *)
Theorem C72_same_timestep_refuted : exists dt t_end l, reasonable dt /\ stored_slices 30 30 (meep_clock dt) dt t_end = Some l /\ exists t, nth_error l 6 = Some (t, 7%nat).
Proof.
  assert (match stored_slices 30 30 (meep_clock eighteenth) eighteenth one32 with Some l => match nth_error l 6 with Some (_, n) => n = 7%nat | None => False end | None => False end) as H by (vm_compute; reflexivity).
  destruct (stored_slices 30 30 (meep_clock eighteenth) eighteenth one32) as [l|] eqn:E; [|contradiction]. destruct (nth_error l 6) as [[t n]|] eqn:E2; [|contradiction]. subst n.
  exists eighteenth, one32, l. split; [exact (proj1 C72_same_timestep_nonvacuous)|]. split; [exact E|]. exists t. exact E2.
Qed.

(** * The edges and the steps of the stored Green's function *)
Lemma small_inverse : 0 < / 2 ^ 53 <= / 16777216 / 8. Proof. simpl pow. lra. Qed.
Theorem C72_edges k res gmin : (k <= 2 ^ 24)%N -> reasonable res -> coordinate32 gmin ->
  exists e, has_value (stored_edge k res gmin) e /\ Rabs (e - (real k / B2R res + B2R gmin)) <= (real k / B2R res + Rabs (B2R gmin)) / 2 ^ 23 + / 2 ^ 150.
Proof.
  intros Hk [Fr [R1 R2]] [Fg Bg]. destruct (of_size_value k Hk) as [Fk Vk]. destruct (to_double_value _ Fk) as [Dk Wk]. rewrite Vk in Wk. destruct (to_double_value _ Fg) as [Dg Wg].
  set (r := B2R res) in *. assert (0 < r) as Hr by (pose proof (bpow_gt_0 radix2 (-100)); lra). set (y := real k / r) in *. set (g := B2R gmin) in *.
  assert (0 <= real k <= bpow radix2 24) as [K0 K1]. { unfold real. split; [apply (IZR_le 0); lia|]. change (bpow radix2 24) with (IZR (2 ^ 24)). apply IZR_le. lia. }
  assert (/ r <= bpow radix2 100) as I1. { rewrite <- (Rinv_inv (bpow radix2 100)), <- (bpow_opp radix2 100). apply Rinv_le_contravar; [apply bpow_gt_0|exact R1]. }
  assert (bpow radix2 (-100) <= / r) as I2. { change (-100)%Z with (- (100))%Z. rewrite (bpow_opp radix2 100). apply Rinv_le_contravar; [exact Hr|exact R2]. }
  assert (0 < / r) as I0 by (apply Rinv_0_lt_compat; exact Hr).
  assert (0 <= y <= bpow radix2 124) as [Y0 Y1]. { unfold y, Rdiv. split; [apply Rmult_le_pos; lra|]. change 124%Z with (24 + 100)%Z. rewrite bpow_plus. apply Rmult_le_compat; lra. }
  pose proof (Bdiv_correct 53 1024 _ _ mode_NE (to_double (of_size k)) res) as HB. change (round_mode mode_NE) with ZnearestE in HB. change (SpecFloat.fexp 53 1024) with fexp64 in HB. rewrite Wk in HB. fold r y in HB. specialize (HB ltac:(lra)).
  rewrite Rlt_bool_true in HB. 2: { apply below_64. rewrite Rabs_pos_eq by lra. eapply Rle_trans; [exact Y1|apply bpow_le; lia]. }
  destruct HB as (EQ & FQ & _). rewrite Dk in FQ. set (Q := Bdiv mode_NE (to_double (of_size k)) res) in *. set (q := rnd64 y) in *. pose proof small_inverse as [U0 U1]. set (u := / 2 ^ 53) in *.
  assert (Rabs (q - y) <= y * u) as Eq.
  { destruct (N.eq_dec k 0) as [->|Hk0]. { assert (y = 0) as E0 by (unfold y, real, Rdiv; cbn; ring). unfold q. rewrite E0. rewrite round_0 by typeclasses eauto. rewrite Rminus_0_r, Rabs_R0. lra. }
    pose proof (relative64_sharp y) as H. rewrite (Rabs_pos_eq y) in H by lra. apply H. apply Rle_trans with (bpow radix2 (-100)); [apply bpow_le; lia|].
    unfold y, Rdiv. rewrite <- (Rmult_1_l (bpow radix2 (-100))). assert (1 <= real k) by (unfold real; apply (IZR_le 1); lia). apply Rmult_le_compat; [lra|apply bpow_ge_0|lra|exact I2]. }
  apply Rabs_le_inv in Eq. assert (y * u <= y) as Yu. { rewrite <- (Rmult_1_r y) at 2. apply Rmult_le_compat_l; lra. }
  assert (Rabs g <= bpow radix2 100) as Bg2. { eapply Rle_trans; [exact Bg|]. right. rewrite bpow_powerRZ. reflexivity. }
  assert (2 * bpow radix2 124 = bpow radix2 125) as B125 by (pose proof (bpow_half 125) as H; change (125 - 1)%Z with 124%Z in H; lra).
  assert (2 * bpow radix2 125 = bpow radix2 126) as B126 by (pose proof (bpow_half 126) as H; change (126 - 1)%Z with 125%Z in H; lra).
  assert (bpow radix2 100 <= bpow radix2 124) as B100 by (apply bpow_le; lia).
  pose proof (Rabs_pos g) as G0. set (ag := Rabs g) in *. assert (- ag <= g <= ag) as Hg by (apply Rabs_le_inv; unfold ag; lra).
  assert (Rabs (q + g) <= bpow radix2 126) as S1. { apply Rabs_le. lra. }
  destruct (plus_value64 Q (to_double gmin) FQ Dg) as [Fs Vs]. { rewrite EQ, Wg. eapply Rle_trans; [exact S1|apply bpow_le; lia]. }
  pose proof (plus64 _ _ (format64 Q) (format64 (to_double gmin))) as HE. rewrite EQ, Wg in HE, Vs. fold g in HE, Vs. set (sv := rnd64 (q + g)) in *.
  set (M := y + ag) in *. set (v := / 16777216) in *. assert (0 < v < / 1000) as V0 by (unfold v; lra).
  assert (y * u <= M * u) as Mu by (apply Rmult_le_compat_r; unfold M; lra). assert (0 <= M) as M0 by (unfold M; lra). assert (0 <= M * u <= M * (v / 8)) as Muv by (split; [apply Rmult_le_pos|apply Rmult_le_compat_l]; lra).
  assert (0 <= M * v) as Mv by (apply Rmult_le_pos; lra). assert (M * v <= M * / 1000) as Mv2 by (apply Rmult_le_compat_l; lra).
  assert (Rabs (q + g) <= M * 2) as S2. { apply Rabs_le. unfold M in *. lra. }
  assert (Rabs (q + g) * u <= M * 2 * u) as S3 by (apply Rmult_le_compat_r; lra). apply Rabs_le_inv in HE. fold u in HE.
  assert (- (M * (1 + / 100)) <= sv <= M * (1 + / 100)) as S4. { unfold M in *. lra. }
  assert (M <= bpow radix2 125) as M2 by (unfold M; lra).
  destruct (to_float_round _ Fs) as [F1 E1]. { apply below_32. rewrite Vs. apply Rabs_le. assert (bpow radix2 126 <= bpow radix2 127) by (apply bpow_le; lia). lra. }
  exists (rnd32 sv). unfold stored_edge. fold Q. rewrite Vs in E1. split; [exact (conj F1 E1)|].
  pose proof (round_error sv) as ER. rewrite ulp32_value in ER. fold v in ER. assert (Rabs sv <= M * (1 + / 100)) as S5 by (apply Rabs_le; lra). assert (Rabs sv * v <= M * (1 + / 100) * v) as S6 by (apply Rmult_le_compat_r; lra).
  set (t := / 2 ^ 150) in *. apply Rabs_le_inv in ER. apply Rabs_le. fold M. replace (M / 2 ^ 23) with (2 * (M * v)) by (unfold v; simpl pow; field). clearbody sv q t. lra.
Qed.
Theorem C72_step a b n : coordinate32 a -> coordinate32 b -> (2 <= n <= 2 ^ 24)%N ->
  exists s, has_value (step32 a b n) s /\ Rabs (s - (B2R b - B2R a) / (real n - 1)) <= Rabs (B2R b - B2R a) / (real n - 1) / 2 ^ 22 + / 2 ^ 150.
Proof.
  intros Ha Hb Hn. destruct (difference b a Hb Ha) as [[Fd Vd] Ed]. destruct (of_size_value n ltac:(lia)) as [Fn Vn]. destruct one_value as [F1 V1].
  assert (real n - 1 = IZR (Z.of_N n - 1)) as En by (unfold real; rewrite minus_IZR; reflexivity).
  assert (has_value (Bminus mode_NE (of_size n) one32) (real n - 1)) as [Fm Vm].
  { assert (rnd32 (B2R (of_size n) - B2R one32) = real n - 1) as E. { rewrite Vn, V1, En. apply round_generic; [typeclasses eauto|]. apply integer_format32. lia. }
    rewrite <- E. apply minus_value; [exact Fn|exact F1|]. rewrite Vn, V1, En, <- abs_IZR. apply Rle_trans with (bpow radix2 24); [change (bpow radix2 24) with (IZR (2 ^ 24)); apply IZR_le; lia|apply bpow_le; lia]. }
  assert (1 <= real n - 1) as N1 by (rewrite En; apply (IZR_le 1); lia). set (m := real n - 1) in *. set (D := B2R b - B2R a) in *. set (d := rnd32 D) in *. clearbody m.
  assert (Rabs D <= 2 * 2 ^ 100) as BD. { destruct Ha as [_ Ba]. destruct Hb as [_ Bb]. apply Rabs_le_inv in Ba, Bb. unfold D. apply Rabs_le. set (B := 2 ^ 100) in *. clearbody B. lra. }
  rewrite ulp32_value in Ed. set (v := / 16777216) in *. assert (0 < v < / 1000) as V0 by (unfold v; lra). pose proof (Rabs_pos D) as D0.
  assert (Rabs d <= Rabs D * (1 + v)) as Bd. { replace d with (D + (d - D)) by ring. eapply Rle_trans; [apply Rabs_triang|]. lra. }
  assert (0 < / m <= 1) as [I0 I1]. { split; [apply Rinv_0_lt_compat; lra|]. rewrite <- Rinv_1. apply Rinv_le_contravar; lra. }
  assert (Rabs (d / m) = Rabs d * / m) as Em. { unfold Rdiv. rewrite Rabs_mult, (Rabs_pos_eq (/ m)) by lra. reflexivity. }
  set (aD := Rabs D) in *. assert (0 <= aD * v <= aD * / 1000) as Dv by (split; [apply Rmult_le_pos|apply Rmult_le_compat_l]; lra).
  pose proof (Rabs_pos d) as d0.
  assert (Rabs (d / m) <= bpow radix2 127) as Q1. { rewrite Em. apply Rle_trans with (Rabs d * 1); [apply Rmult_le_compat_l; lra|]. assert (bpow radix2 102 = 4 * 2 ^ 100) as B2. { rewrite bpow_powerRZ. unfold powerRZ. change (Pos.to_nat 102) with 102%nat. change (IZR radix2) with 2. change (2 ^ 102) with (2 * (2 * 2 ^ 100)). ring. } assert (bpow radix2 102 <= bpow radix2 127) by (apply bpow_le; lia). set (B := 2 ^ 100) in *. clearbody B. lra. }
  pose proof (Bdiv_correct 24 128 _ _ mode_NE (Bminus mode_NE b a) (Bminus mode_NE (of_size n) one32)) as HB. change (round_mode mode_NE) with ZnearestE in HB. change (SpecFloat.fexp 24 128) with fexp32 in HB.
  rewrite Vd, Vm in HB. fold d in HB. specialize (HB ltac:(lra)). rewrite Rlt_bool_true in HB by (apply below_32; exact Q1). destruct HB as (EQ & FQ & _). rewrite Fd in FQ.
  exists (rnd32 (d / m)). split; [exact (conj FQ EQ)|]. pose proof (round_error (d / m)) as ER. rewrite ulp32_value in ER. fold v in ER. rewrite Em in ER.
  replace (rnd32 (d / m) - D / m) with ((rnd32 (d / m) - d / m) + (d - D) * / m) by (unfold Rdiv; ring). eapply Rle_trans; [apply Rabs_triang|]. rewrite Rabs_mult, (Rabs_pos_eq (/ m)) by lra.
  assert (Rabs (d - D) * / m <= aD * v * / m) as L1 by (apply Rmult_le_compat_r; lra). assert (Rabs d * / m * v <= aD * (1 + v) * / m * v) as L2. { apply Rmult_le_compat_r; [lra|]. apply Rmult_le_compat_r; lra. }
  replace (aD / m / 2 ^ 22) with (4 * (aD * / m * v)) by (unfold v, Rdiv; simpl pow; field; lra). assert (0 <= aD * / m * v) as P by (apply Rmult_le_pos; [apply Rmult_le_pos|]; lra).
  replace (aD * v * / m) with (aD * / m * v) in L1 by ring. replace (aD * (1 + v) * / m * v) with (aD * / m * v + aD * / m * v * v) in L2 by ring.
  assert (aD * / m * v * v <= aD * / m * v * 1) as L3 by (apply Rmult_le_compat_l; lra). set (w := aD * / m * v) in *. set (t := / 2 ^ 150) in *. clearbody w t. lra.
Qed.
Example C72_edges_nonvacuous : reasonable ex_res /\ coordinate32 (of_size 41) /\ coordinate32 (of_size 1).
Proof. split; [exact (proj1 C71_nonvacuous)|]. split; apply ex_coordinate; lia. Qed.

Print Assumptions C72_times.
Print Assumptions C72_last_slice_refuted.
Print Assumptions C72_edges.
Print Assumptions C72_step.
Print Assumptions C72_stored_fields.
Print Assumptions C72_same_timestep.
Print Assumptions C72_same_timestep_refuted.
