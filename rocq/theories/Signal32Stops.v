(** C75: the whole signal for any times, and when the calculation stops. *)
From stdpp Require Import base list list_numbers numbers option.
From Coq Require Import Reals ZArith Bool Lra Lia.
From Flocq Require Import Core IEEE754.BinarySingleNaN.
From Verif Require Import NDArrayModel BBoxModel ChunkMetaModel InterpModel SignalModel AntennaModel AntennaSpec AntennaProps DiscreteModel DiscreteSpec DiscreteProps.
From Verif Require Import Interp32Model Interp32Spec Interp32Weights Signal32Model Signal32Spec Signal32Props Signal32Whole Signal32Error Signal32Any Signal32Signal Signal32Example.
Local Open Scope R_scope.
Local Notation fexp32 := (FLT_exp (-149) 24).
Local Notation rnd32 := (round radix2 fexp32 ZnearestE).
Local Notation u := (/ 16777216).

(** The length of the track is rounded to a float and then up to the number of intervals. *)
Theorem C75_intervals (t0 t1 : f32) : is_finite t0 = true -> is_finite t1 = true -> B2R t0 < B2R t1 -> B2R t1 - B2R t0 <= 2 ^ 24 ->
  exists n, num_intervals32 t0 t1 = Some (N.of_nat n) /\ (0 < n)%nat /\ INR n <= 2 ^ 24 /\ (B2R t1 - B2R t0) * (1 - u) <= INR n < (B2R t1 - B2R t0) * (1 + u) + 1.
Proof.
  intros F0 F1 Hlt Hd. assert (2 ^ 24 = 16777216) as E24 by (simpl pow; lra). rewrite E24 in *. set (d := B2R t1 - B2R t0) in *. assert (0 < d) as Hd0 by (unfold d; lra).
  assert (16777216 <= bpow radix2 127) as B127 by (change 16777216 with (bpow radix2 24); apply bpow_le; lia).
  destruct (minus_value t1 t0 F1 F0) as [G1 V1]; [fold d; rewrite Rabs_pos_eq by lra; lra|]. pose proof (diff_err t1 t0) as R1. fold d in V1, R1. rewrite (Rabs_pos_eq d) in R1 by lra. apply Rabs_le_inv in R1.
  assert (rnd32 d <= 16777216) as Hr. { apply round_le_generic; [apply FLT_exp_valid; reflexivity|typeclasses eauto|apply (integer_format32 16777216); lia|lra]. }
  assert (rnd32 (rnd32 d) = rnd32 d) as Ed. { rewrite <- V1. apply rnd32_float. } set (x := rnd32 d) in *.
  destruct one_value as [Fo Vo]. unfold f32 in *.
  destruct (div_value32 (Bminus mode_NE t1 t0) one32 G1) as [G2 V2]; [lra|rewrite V1, Vo; unfold Rdiv; rewrite Rinv_1, Rmult_1_r, Rabs_pos_eq by lra; lra|]. rewrite V1, Vo in V2. unfold Rdiv in V2. rewrite Rinv_1, Rmult_1_r, Ed in V2.
  pose proof (ceil_value _ G2) as HC. rewrite V2 in HC. pose proof (Zceil_ub x) as Z1. set (z := Zceil x) in *.
  assert (IZR z < x + 1) as Z2. { unfold z. destruct (Req_dec (IZR (Zfloor x)) x) as [E|E]; [rewrite <- E at 1; rewrite Zceil_IZR; lra|]. rewrite (Zceil_floor_neq _ E), plus_IZR. pose proof (Zfloor_lb x). pose proof (Zfloor_ub x). lra. }
  assert (0 < z)%Z as Hz0 by (apply lt_IZR; lra). assert (z <= 16777216)%Z as Hz1 by (apply Zceil_glb; exact Hr).
  exists (Z.to_nat z). unfold num_intervals32. rewrite (size_value _ _ HC) by lia. assert (INR (Z.to_nat z) = IZR z) as Ei. { rewrite INR_IZR_INZ, Z2Nat.id by lia. reflexivity. } rewrite Ei.
  split; [f_equal; lia|]. split; [lia|]. split; [apply IZR_le; lia|lra].
Qed.

(** * If the assertions hold *)
(** For any times: if the assertion in line 326 holds for every point at the first sample that it contributes to, the signal has the contribution of every point from this sample on, in the order of the points;
    the sample [c p] is up to the error the first one that is not earlier than the point, and the time since the point is correct up to the error and not negative. *)
Theorem C75_any_times {A} call ib sb seg (ts dt : f32) num n weight (e : nat -> nat -> nat -> A -> A) signal :
  (1 <= ib)%nat -> (1 <= sb)%nat -> any_times (s32_t0 seg) (s32_t1 seg) ts dt n num -> num_intervals32 (s32_t0 seg) (s32_t1 seg) = Some (N.of_nat n) -> (num <= length signal)%nat ->
  let step := itgr_step32 (s32_t0 seg) (s32_t1 seg) (N.of_nat n) in
  let pt := point_time (B2R (s32_t0 seg)) ((B2R (s32_t1 seg) - B2R (s32_t0 seg)) / INR n) in
  let st := sample_time (B2R ts) (B2R dt) in
  let E := any_error (B2R (s32_t0 seg)) (B2R (s32_t1 seg)) (B2R ts) (B2R dt) num in
  exists c : nat -> nat,
    (forall p, (p <= n)%nat -> causal_sample32 (itgr_time32 (s32_t0 seg) step p) ts dt = Some (c p) /\ pt p - E <= st (c p) /\ ((0 < c p)%nat -> st (c p) < pt p + B2R dt + E)) /\
    ((forall p, (p <= n)%nat -> (c p < num)%nat -> 0 <= B2R (conv_start32 (itgr_time32 (s32_t0 seg) step p) ts dt (c p))) ->
     (forall p first m sig conv, (p <= n)%nat -> (c p <= first)%nat -> (0 < m)%nat -> (first + m <= num)%nat -> length sig = length signal ->
       is_finite conv = true -> 0 <= B2R conv -> Rabs (B2R conv - (st first - pt p)) <= E ->
       call (coord_cyl32 (position32 seg step p)) conv m (field_cyl32 (source32 seg) (position32 seg step p)) first (point_weight32 (trapezoid32 n p) step weight) sig
       = Some (changed (fun j y => if ((first <=? j) && (j <? first + m))%nat then e p first j y else y) sig)) ->
     apply_accumulate_with call ib sb seg ts dt num weight signal
     = Some (changed (fun j y => if (j <? num)%nat then foldl (fun y p => if (c p <=? j)%nat then e p (Nat.max (j / sb * sb) (c p)) j y else y) y (seq 0 (n + 1)) else y) signal)).
Proof.
  intros Hib Hsb Ht Hint Hlen step pt st E. set (c := fun p : nat => Z.to_nat (Zceil (rnd32 (rnd32 (B2R (itgr_time32 (s32_t0 seg) step p) - B2R ts) / B2R dt)))). exists c. split.
  { intros p Hp. pose proof (causal_value _ _ _ _ _ _ Ht p Hp) as Hc. split; [exact Hc|]. exact (causal_error _ _ _ _ _ _ Ht p _ Hp Hc). }
  intros Hass Hcall.
  assert (forall p j, (p <= n)%nat -> (c p <= j)%nat -> (j < num)%nat -> 0 <= B2R (conv_start32 (itgr_time32 (s32_t0 seg) step p) ts dt j)) as Hpos.
  { intros p j Hp Hcj Hj. apply Rle_trans with (B2R (conv_start32 (itgr_time32 (s32_t0 seg) step p) ts dt (c p))); [apply Hass; [done|lia]|]. apply (conv_mono _ _ _ _ _ _ Ht); [done|done|lia]. }
  apply (loops_spec call ib sb seg ts dt num n weight (length signal) c e); try done.
  - apply Ht.
  - intros p Hp. exact (causal_value _ _ _ _ _ _ Ht p Hp).
  - intros p q Hpq Hq. exact (causal_mono _ _ _ _ _ _ Ht p q Hpq Hq).
  - intros p j Hp Hcj Hj. destruct (conv_value _ _ _ _ _ _ Ht p j Hp ltac:(lia)) as (F & _). rewrite Bleb_correct by (reflexivity || exact F). apply Rle_bool_true. by apply Hpos.
  - intros p first m sig Hp Hcf Hm Hfm Hls. destruct (conv_value _ _ _ _ _ _ Ht p first Hp ltac:(lia)) as (F & _ & Herr). apply Hcall; try done. apply Hpos; [done|done|lia].
Qed.
Print Assumptions C75_any_times.

(** * If one of them does not hold *)
Lemma foldM_some {A B} (f : A -> B -> option A) l s r : foldM f s l = Some r -> forall x, x ∈ l -> exists s' r', f s' x = Some r'.
Proof.
  revert s. induction l as [|y l IH]; intros s H x Hx; [by inversion Hx|]. cbn [foldM] in H. destruct (f s y) as [s1|] eqn:E; [|done]. apply elem_of_cons in Hx as [->|Hx]; [by exists s, s1|]. by eapply IH.
Qed.
Lemma loop_break_some {A} (f : A -> nat -> option (A + A)) k a s r : loop_break f s (seq a k) = Some r ->
  forall x, (a <= x < a + k)%nat -> (forall y s' r', (a <= y < x)%nat -> f s' y <> Some (inr r')) -> exists s', f s' x <> None.
Proof.
  revert a s. induction k as [|k IH]; intros a s H x Hx Hy; [lia|]. cbn [seq loop_break] in H. destruct (f s a) as [[s1|s1]|] eqn:E; cbn [mbind option_bind] in H; [| |done].
  - destruct (decide (x = a)) as [->|Hne]; [exists s; by rewrite E|]. apply (IH (S a) s1 H x); [lia|]. intros y s' r' Hya. apply Hy. lia.
  - destruct (decide (x = a)) as [->|Hne]; [exists s; by rewrite E|]. by destruct (Hy a s s1 ltac:(lia)).
Qed.
Lemma starts_cover fuel s n B j : (1 <= B)%nat -> (s <= j < n)%nat -> (n - s <= fuel)%nat -> exists b, b ∈ starts fuel s n B /\ (b <= j < b + B)%nat.
Proof.
  intros HB. revert s. induction fuel as [|fuel IH]; intros s Hj Hf; [lia|]. cbn [starts]. rewrite (proj2 (Nat.ltb_lt s n)) by lia.
  destruct (Nat.lt_ge_cases j (s + B)); [exists s; split; [left|lia]|]. destruct (IH (s + B)%nat) as (b & Hb & Hbj); [lia|lia|]. exists b. split; [by right|done].
Qed.
(** If the time since a point is negative at the first sample that it contributes to, the calculation stops, whatever the Green's function is. *)
Theorem C75_stops {A} call ib sb seg (ts dt : f32) num n weight p c (signal : list A) :
  (1 <= ib)%nat -> (1 <= sb)%nat -> any_times (s32_t0 seg) (s32_t1 seg) ts dt n num -> num_intervals32 (s32_t0 seg) (s32_t1 seg) = Some (N.of_nat n) ->
  (p <= n)%nat -> let t_p := itgr_time32 (s32_t0 seg) (itgr_step32 (s32_t0 seg) (s32_t1 seg) (N.of_nat n)) p in
  causal_sample32 t_p ts dt = Some c -> (c < num)%nat -> B2R (conv_start32 t_p ts dt c) < 0 ->
  apply_accumulate_with call ib sb seg ts dt num weight signal = None.
Proof.
  intros Hib Hsb Ht Hint Hp t_p Hc Hcn Hneg. destruct (apply_accumulate_with call ib sb seg ts dt num weight signal) as [r|] eqn:Hres; [exfalso|done].
  unfold apply_accumulate_with in Hres. rewrite Hint in Hres. cbn [mbind option_bind] in Hres. rewrite Nat2N.id in Hres. set (step := itgr_step32 (s32_t0 seg) (s32_t1 seg) (N.of_nat n)) in *.
  destruct (starts_cover (n + 1) 0 (n + 1) ib p) as (blk & Hblk & Hpb); [lia|lia|lia|].
  destruct (foldM_some _ _ _ _ Hres blk Hblk) as (s1 & r1 & H1). cbv zeta in H1. destruct (fill_weights32 _ _ _ _) as [w|] eqn:Hw in H1; [|done]. cbn [mbind option_bind] in H1.
  destruct (starts_cover num 0 num sb c) as (sblk & Hsblk & Hcb); [lia|lia|lia|].
  destruct (foldM_some _ _ _ _ H1 sblk Hsblk) as (s2 & r2 & H2). set (send := Nat.min (sblk + sb) num) in *. assert (c < send)%nat as Hcs by (unfold send; lia).
  destruct (loop_break_some _ _ _ _ _ H2 (p - blk)%nat) as (s3 & H3); [lia|..].
  - intros i s' r' Hi. assert (i + blk <= n)%nat as Hin by lia. pose proof (causal_value _ _ _ _ _ _ Ht (i + blk)%nat Hin) as Hi'. fold step in Hi'. rewrite Hi'. cbn [mbind option_bind].
    pose proof (causal_mono _ _ _ _ _ _ Ht (i + blk)%nat p ltac:(lia) Hp) as Hm. pose proof (causal_value _ _ _ _ _ _ Ht p Hp) as Hv. fold step in Hm, Hv. cbv beta in Hm, Hv. fold t_p in Hm, Hv. rewrite Hv in Hc. injection Hc as Hc. rewrite Hc in Hm.
    fold step. set (ci := Z.to_nat _) in *. rewrite (proj2 (Nat.eqb_neq _ 0)) by lia. destruct (Bleb _ _); [|done]. destruct (_ <? _)%nat; [done|]. destruct (w !! i); [|done]. cbn [mbind option_bind]. by destruct (call _ _ _ _ _ _ _).
  - replace (p - blk + blk)%nat with p in H3 by lia. fold t_p in H3. rewrite Hc in H3. cbn [mbind option_bind] in H3. replace (Nat.max sblk (Nat.min c send)) with c in H3 by lia.
    rewrite (proj2 (Nat.eqb_neq _ 0)) in H3 by lia.
    destruct (conv_value _ _ _ _ _ _ Ht p c Hp ltac:(lia)) as (F & _). fold step in F. cbv beta in F. fold t_p in F. rewrite Bleb_correct in H3 by (reflexivity || exact F). rewrite Rle_bool_false in H3 by exact Hneg. done.
Qed.
Print Assumptions C75_stops.

(** * Examples *)
Lemma ex_any t0 t1 dt n : has_value t0 (B2R t0) -> has_value t1 (B2R t1) -> has_value dt (B2R dt) -> 0 <= B2R t0 < B2R t1 -> B2R t1 <= 10 -> / 4 <= B2R dt <= 10 -> (0 < n <= 10)%nat -> any_times t0 t1 zero32 dt n 20.
Proof.
  intros [F0 _] [F1 _] [Fd _] H0 H1 Hd Hn. assert (2 ^ 60 = 1152921504606846976) as E60 by (simpl pow; lra). assert (2 ^ 20 = 1048576) as E20 by (simpl pow; lra). assert (2 ^ 30 = 1073741824) as E30 by (simpl pow; lra). assert (2 ^ 24 = 16777216) as E24 by (simpl pow; lra).
  assert (/ 2 ^ 90 <= / 4) as P90. { apply Rinv_le_contravar; [lra|]. apply Rle_trans with (2 ^ 2); [simpl pow; lra|apply Rle_pow; [lra|lia]]. } assert (INR n <= 10) as Hn' by (rewrite INR_IZR_INZ; apply IZR_le; lia).
  assert (Rabs (B2R zero32) = 0) as Ez by (simpl (B2R zero32); apply Rabs_R0). assert (Rabs (B2R t0) = B2R t0) as E0 by (apply Rabs_pos_eq; lra). assert (Rabs (B2R t1) = B2R t1) as E1 by (apply Rabs_pos_eq; lra). unfold f32 in *.
  split; rewrite ?Ez, ?E0, ?E1, ?E60, ?E20, ?E30, ?E24; [by split_and!|lra|lra|lra|lra|rewrite INR_IZR_INZ; apply IZR_le; lia|split; [lia|lra]].
Qed.
(** The track of C75_causality_refuted. *)
Example C75_stops_nonvacuous : apply_accumulate_with ex_count 3 4 (Segment32 (zero32, zero32, zero32) (one32, zero32, zero32) ex_6_3 ex_7_3 one32) zero32 ex_0_7 20 one32 [] = None.
Proof.
  destruct C75_causality_refuted as ([F0 V0] & [F1 V1] & [Fd Vd] & Hc & Hneg & _).
  apply (C75_stops ex_count 3 4 _ zero32 ex_0_7 20 1 one32 0 9); [lia|lia|apply ex_any; try (split; [assumption|reflexivity]); simpl s32_t0; simpl s32_t1; rewrite ?V0, ?V1, ?Vd; lra || lia|vm_compute; reflexivity|lia| |lia|].
  - vm_compute. reflexivity.
  - simpl s32_t0. simpl s32_t1. replace (itgr_time32 _ _ 0) with ex_6_3; [exact Hneg|]. unfold f32 in *. apply B2SF_inj. vm_compute. reflexivity.
Qed.
(** A track from 0.7 to 7.3, sampled every 0.3: the assertions hold, and this is the number of contributions to every sample. *)
Definition ex_seg2 : segment32 := Segment32 (zero32, zero32, zero32) (one32, zero32, zero32) ex_0_7 ex_7_3 one32.
Example C75_any_times_nonvacuous : any_times (s32_t0 ex_seg2) (s32_t1 ex_seg2) zero32 ex_0_3 7 20 /\ num_intervals32 (s32_t0 ex_seg2) (s32_t1 ex_seg2) = Some (N.of_nat 7) /\
  (forall p c, (p <= 7)%nat -> let t_p := itgr_time32 (s32_t0 ex_seg2) (itgr_step32 (s32_t0 ex_seg2) (s32_t1 ex_seg2) (N.of_nat 7)) p in causal_sample32 t_p zero32 ex_0_3 = Some c -> Bleb zero32 (conv_start32 t_p zero32 ex_0_3 c) = true) /\
  apply_accumulate_with ex_count 3 4 ex_seg2 zero32 ex_0_3 20 one32 (replicate 21 0%nat) = Some [0; 0; 0; 1; 1; 1; 2; 2; 2; 3; 3; 3; 4; 4; 4; 5; 5; 5; 5; 6; 0]%nat.
Proof.
  destruct C75_causality_refuted as (_ & [F1 V1] & [F0 V0] & _). destruct C75_chunk_end_refuted as ([Fd Vd] & _).
  split; [apply ex_any; try (split; [assumption|reflexivity]); simpl s32_t0; simpl s32_t1; rewrite ?V0, ?V1, ?Vd; lra || lia|].
  split; [vm_compute; reflexivity|]. split; [|vm_compute; reflexivity].
  intros p c Hp. cbv zeta. do 8 (destruct p as [|p]; [intros Hc; vm_compute in Hc; injection Hc as <-; vm_compute; reflexivity|]). lia.
Qed.
Print Assumptions C75_any_times_nonvacuous.
