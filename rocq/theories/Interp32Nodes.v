(** C74: in floats, too, interpolation at the position of a sample gives the sample; the positions of the samples of a signal. *)
From stdpp Require Import base list list_numbers numbers option.
From Coq Require Import Reals ZArith Bool Lra Lia.
From Flocq Require Import Core IEEE754.BinarySingleNaN.
From Verif Require Import IndexSpec LoopsModel LoopsProofs NDArrayModel NDArrayProofs NDArrayOps NDArrayProps.
From Verif Require Import AntennaModel AntennaSpec AntennaProps DiscreteModel DiscreteSpec DiscreteProps Interp32Model Interp32Spec Interp32Weights Interp32Proofs Interp32Props.
Local Open Scope R_scope.
Local Notation fexp32 := (FLT_exp (-149) 24).
Local Notation rnd32 := (round radix2 fexp32 ZnearestE).
Local Instance valid32'' : Valid_exp fexp32. Proof. apply FLT_exp_valid. reflexivity. Qed.
Local Notation u := (/ 16777216).
Local Notation add := (Bplus mode_NE).
Local Notation mul := (Bmult mode_NE).

Lemma zero_cases (r : f32) : is_finite r = true -> B2R r = 0 -> exists s, r = B754_zero s.
Proof. destruct r as [s|s| |s m ex He]; intros F V; try discriminate; [by exists s|]. exfalso. cbn [B2R] in V. apply eq_0_F2R in V. destruct s; discriminate. Qed.
Lemma sf_zero (x : f32) s : B2SF x = SpecFloat.S754_zero s -> has_value x 0.
Proof. intros H. destruct x; try discriminate. split; reflexivity. Qed.
Lemma sf_one (x : f32) : B2SF x = SpecFloat.S754_finite false 8388608 (-23) -> has_value x 1.
Proof. intros H. split; [by destruct x|]. rewrite <- (SF2R_B2SF 24 128), H. unfold SF2R, F2R. cbn [Fnum Fexp cond_Zopp]. rewrite bpow_neg. change (2 ^ 23)%Z with 8388608%Z. lra. Qed.
(** Weights: one for the sample, zero for the others. *)
Definition one_at (k i : nat) : R := if decide (i = k) then 1 else 0.
Lemma keys_node (r : f32) : is_finite r = true -> B2R r = 0 -> exists ws, k32_kern keys32 r = Some ws /\ length ws = 4%nat /\ forall i, (i < 4)%nat -> has_value (nth i ws zero32) (one_at 1 i).
Proof.
  intros F V. destruct (zero_cases r F V) as [s ->]. cbn [k32_kern keys32]. rewrite (proj2 (frac_ok32_spec (B754_zero s) eq_refl)) by (cbn [B2R]; lra). cbv zeta.
  eexists. split; [reflexivity|]. split; [reflexivity|]. intros i Hi. unfold one_at. destruct i as [|[|[|[|i]]]]; cbn [nth decide decide_rel Nat.eq_dec]; [| | | |lia].
  - rewrite decide_False by lia. destruct s; eapply sf_zero; vm_compute; reflexivity.
  - rewrite decide_True by lia. destruct s; apply sf_one; vm_compute; reflexivity.
  - rewrite decide_False by lia. destruct s; eapply sf_zero; vm_compute; reflexivity.
  - rewrite decide_False by lia. destruct s; eapply sf_zero; vm_compute; reflexivity.
Qed.
Lemma linear_node (r : f32) : is_finite r = true -> B2R r = 0 -> exists ws, k32_kern linear32 r = Some ws /\ length ws = 2%nat /\ forall i, (i < 2)%nat -> has_value (nth i ws zero32) (one_at 0 i).
Proof.
  intros F V. destruct (zero_cases r F V) as [s ->]. cbn [k32_kern linear32]. rewrite (proj2 (frac_ok32_spec (B754_zero s) eq_refl)) by (cbn [B2R]; lra).
  eexists. split; [reflexivity|]. split; [reflexivity|]. intros i Hi. unfold one_at. destruct i as [|[|i]]; cbn [nth]; [| |lia].
  - rewrite decide_True by lia. destruct s; apply sf_one; vm_compute; reflexivity.
  - rewrite decide_False by lia. split; reflexivity.
Qed.
Lemma mul_exact (x y : f32) v : is_finite x = true -> is_finite y = true -> B2R x * B2R y = v -> generic_format radix2 fexp32 v -> Rabs v <= 2 ^ 110 -> has_value (mul x y) v.
Proof.
  intros Fx Fy E G B. destruct (mult_value32 x y Fx Fy) as [F V]; [rewrite E; pose proof bpow127_big; lra|]. split; [exact F|]. rewrite V, E. apply round_generic; [typeclasses eauto|exact G].
Qed.
Lemma add_exact (x y : f32) v : is_finite x = true -> is_finite y = true -> B2R x + B2R y = v -> generic_format radix2 fexp32 v -> Rabs v <= 2 ^ 110 -> has_value (add x y) v.
Proof.
  intros Fx Fy E G B. destruct (plus_value x y Fx Fy) as [F V]; [rewrite E; pose proof bpow127_big; lra|]. split; [exact F|]. rewrite V, E. apply round_generic; [typeclasses eauto|exact G].
Qed.
(** A sum of products of which only one is not zero. *)
Lemma fdot_single {I} `{EqDecision I} (L : list I) (a b : I -> f32) i0 v : NoDup L -> generic_format radix2 fexp32 v -> Rabs v <= 2 ^ 110 ->
  (forall i, i ∈ L -> is_finite (a i) = true /\ is_finite (b i) = true /\ B2R (a i) * B2R (b i) = if decide (i = i0) then v else 0) ->
  has_value (fdot zero32 L a b) (if decide (i0 ∈ L) then v else 0).
Proof.
  intros HN G B. assert (0 <= 2 ^ 110) as P by (apply pow_le; lra). induction L as [|i L IH] using rev_ind; intros H.
  - rewrite decide_False by (intros X; inversion X). split; reflexivity.
  - unfold fdot. rewrite foldl_app. cbn [foldl]. fold (fdot zero32 L a b). apply NoDup_app in HN as (N1 & N2 & _).
    destruct (IH N1) as [F V]; [intros j Hj; apply H; apply elem_of_app; by left|]. destruct (H i) as (Fa & Fb & E). { apply elem_of_app. right. by left. }
    destruct (mul_exact (a i) (b i) (if decide (i = i0) then v else 0) Fa Fb E) as [Fm Vm]. { destruct (decide (i = i0)); [exact G|apply generic_format_0]. } { destruct (decide (i = i0)); [exact B|rewrite Rabs_R0; lra]. }
    assert (has_value (add (fdot zero32 L a b) (mul (a i) (b i))) (if decide (i0 ∈ L ++ [i]) then v else 0)) as [Fs Vs]; [|by split].
    apply add_exact; [exact F|exact Fm| | |].
    + rewrite V, Vm. destruct (decide (i = i0)) as [->|Hne].
      * rewrite (decide_False (P := i0 ∈ L)) by (intros X; apply (N2 _ X); by left). rewrite decide_True by (apply elem_of_app; right; by left). lra.
      * destruct (decide (i0 ∈ L)) as [Hi|Hi]; [rewrite decide_True by (apply elem_of_app; by left); lra|]. rewrite decide_False; [lra|]. intros [X|X]%elem_of_app; [done|]. apply elem_of_list_singleton in X. congruence.
    + destruct (decide (i0 ∈ L ++ [i])); [exact G|apply generic_format_0].
    + destruct (decide (i0 ∈ L ++ [i])); [exact B|rewrite Rabs_R0; lra].
Qed.
Lemma pairs_NoDup l1 l2 : NoDup l1 -> NoDup l2 -> NoDup (pairs l1 l2).
Proof.
  intros H1 H2. induction l1 as [|i l1 IH]; [constructor|]. cbn [pairs]. apply list.NoDup_cons in H1 as [Hi H1]. apply NoDup_app. split; [apply NoDup_fmap_2; [intros ? ? [= ->]; done|done]|]. split; [|by apply IH].
  intros p Hp Hq. apply elem_of_list_fmap in Hp as (j & -> & _). apply elem_pairs in Hq as [Hq _]. done.
Qed.

(** At the position of a sample: exactly its value, with both kernels. *)
Theorem C74_nodes K vd arr n1 n2 n3 x1 x2 o1 o2 start delta n (o3 : nat -> nat) M :
  K = linear32 \/ K = keys32 -> api_array vd arr -> a_shape arr = [n1; n2; n3] -> position x1 o1 0 -> position x2 o2 0 -> room (k32_support K) n1 o1 -> room (k32_support K) n2 o2 ->
  (forall s, (s < n)%nat -> position (inner_ind32 start delta s) (o3 s) 0 /\ room (k32_support K) n3 (o3 s)) ->
  0 <= M <= 2 ^ 100 -> (forall i j k c, (i < n1)%nat -> (j < n2)%nat -> (k < n3)%nat -> (c < vd)%nat -> bounded_by M (component vd arr [i; j; k] c)) ->
  exists out, interpolate32 K vd arr (replicate n (replicate vd zero32)) x1 x2 start delta n = Some out /\ length out = n /\
    forall s, (s < n)%nat -> exists row, out !! s = Some row /\ length row = vd /\ forall c, (c < vd)%nat -> exists y, row !! c = Some y /\
      has_value y (B2R (component vd arr [o1; o2; o3 s] c)).
Proof.
  intros HK Ha Hsh Hp1 Hp2 Hr1 Hr2 Hs HM Hb. set (sup := k32_support K) in *.
  assert (1 <= sup)%nat as U0 by (unfold sup; destruct HK as [->| ->]; cbn; lia).
  assert (forall r : f32, is_finite r = true -> B2R r = 0 -> exists ws, k32_kern K r = Some ws /\ length ws = (2 * sup)%nat /\ forall i, (i < 2 * sup)%nat -> has_value (nth i ws zero32) (one_at (sup - 1) i)) as HW.
  { unfold sup. destruct HK as [->| ->]; [exact linear_node|exact keys_node]. }
  destruct (modf32_spec _ _ _ Hp1) as (r1 & M1 & F1 & V1). destruct (modf32_spec _ _ _ Hp2) as (r2 & M2 & F2 & V2).
  destruct (HW r1 F1 V1) as (w1 & K1 & L1 & N1). destruct (HW r2 F2 V2) as (w2 & K2 & L2 & N2).
  set (r3 := fun s => match modf32 (inner_ind32 start delta s) with Some (_, r) => r | None => zero32 end).
  set (w3 := fun s => match k32_kern K (r3 s) with Some w => w | None => [] end).
  assert (forall s, (s < n)%nat -> modf32 (inner_ind32 start delta s) = Some (o3 s, r3 s) /\ k32_kern K (r3 s) = Some (w3 s) /\ length (w3 s) = (2 * sup)%nat /\ room sup n3 (o3 s) /\
    (forall i, (i < 2 * sup)%nat -> has_value (nth i (w3 s) zero32) (one_at (sup - 1) i))) as H3.
  { intros s Hsn. destruct (Hs s Hsn) as [Hp3 Hr3]. destruct (modf32_spec _ _ _ Hp3) as (r & M3 & F3 & V3). destruct (HW r F3 V3) as (w & K3 & L3 & N3). unfold w3, r3. rewrite M3, K3. done. }
  assert (replicate n (replicate vd zero32) = ptab n vd (fun _ _ => zero32)) as ->.
  { rewrite (pvec_const vd zero32). apply list_eq_same_length with n; rewrite ?replicate_length; try done. { unfold ptab. by rewrite fmap_length, seq_length. }
    intros i a b Hi. rewrite ptab_lookup, lookup_replicate_2 by done. congruence. }
  pose proof (interpolate32_spec K vd arr n1 n2 n3 x1 x2 o1 r1 o2 r2 w1 w2 start delta n o3 r3 w3 (fun _ _ => zero32)) as HI. cbv zeta in HI. fold sup in HI.
  rewrite HI; [|lia|exact Ha|exact Hsh|exact M1|exact M2|exact K1|exact K2|exact L1|exact L2|exact Hr1|exact Hr2|].
  2: { intros s Hsn. destruct (H3 s Hsn) as (A & B & C & D & _). done. }
  clear HI. eexists. split; [reflexivity|]. split; [unfold ptab; by rewrite fmap_length, seq_length|]. intros s Hsn. eexists. rewrite ptab_lookup by done. split; [reflexivity|]. split; [apply pvec_length|].
  intros c Hc. eexists. rewrite pvec_lookup by done. split; [reflexivity|].
  destruct (H3 s Hsn) as (_ & _ & _ & [Q3 Q3'] & N3). destruct Hr1 as [Q1 Q1'], Hr2 as [Q2 Q2']. set (off := (sup - 1)%nat) in *. set (ks := (2 * sup)%nat) in *.
  rewrite (fdot_pairs (seq (o1 - off) ks) (seq (o2 - off) ks) (fun i1 i2 => fdot zero32 (seq 0 ks) (fun i => nth i (w3 s) zero32) (fun i => component vd arr [i1; i2; o3 s - off + i]%nat c)) (fun i1 i2 => mul (nth (i1 - (o1 - off)) w1 zero32) (nth (i2 - (o2 - off)) w2 zero32))).
  assert (forall x : f32, bounded_by M x -> Rabs (B2R x) <= 2 ^ 110) as HB. { intros x [_ Hx]. assert (2 ^ 100 <= 2 ^ 110) by (apply Rle_pow; [lra|lia]). lra. }
  assert (forall i1 i2, (i1 < n1)%nat -> (i2 < n2)%nat -> has_value (fdot zero32 (seq 0 ks) (fun i => nth i (w3 s) zero32) (fun i => component vd arr [i1; i2; o3 s - off + i]%nat c)) (B2R (component vd arr [i1; i2; o3 s] c))) as Hcol.
  { intros i1 i2 Hi1 Hi2. assert (bounded_by M (component vd arr [i1; i2; o3 s] c)) as HC by (apply Hb; [lia..|done]).
    pose proof (fdot_single (seq 0 ks) (fun i => nth i (w3 s) zero32) (fun i => component vd arr [i1; i2; o3 s - off + i]%nat c) off (B2R (component vd arr [i1; i2; o3 s] c)) (NoDup_seq _ _) (format32 _) (HB _ HC)) as HF.
    rewrite decide_True in HF by (apply elem_of_seq; unfold off, ks; lia). apply HF. intros i Hi%elem_of_seq. destruct (N3 i) as [Fi Vi]; [lia|].
    split; [exact Fi|]. split; [apply Hb; [unfold off, ks in *; lia..|done]|]. rewrite Vi. unfold one_at. destruct (decide (i = off)) as [->|]; [|ring]. rewrite Nat.sub_add by done. ring. }
  assert (bounded_by M (component vd arr [o1; o2; o3 s] c)) as HC by (apply Hb; [lia..|done]).
  pose proof (fdot_single (pairs (seq (o1 - off) ks) (seq (o2 - off) ks)) (fun p => fdot zero32 (seq 0 ks) (fun i => nth i (w3 s) zero32) (fun i => component vd arr [p.1; p.2; o3 s - off + i]%nat c)) (fun p => mul (nth (p.1 - (o1 - off)) w1 zero32) (nth (p.2 - (o2 - off)) w2 zero32)) (o1, o2) (B2R (component vd arr [o1; o2; o3 s] c)) (pairs_NoDup _ _ (NoDup_seq _ _) (NoDup_seq _ _)) (format32 _) (HB _ HC)) as HF.
  rewrite decide_True in HF.
  2: { rewrite pairs_seq. apply elem_of_list_fmap. exists (off, off). split; [cbn; rewrite !Nat.sub_add by done; done|].
    assert (forall l1 l2 (i j : nat), i ∈ l1 -> j ∈ l2 -> (i, j) ∈ pairs l1 l2) as HP.
    { intros l1 l2 i j. induction l1 as [|i' l1 IH]; intros A B; [inversion A|]. cbn [pairs]. apply elem_of_app. apply elem_of_cons in A as [->|A]; [left; by apply elem_of_list_fmap_1|right; by apply IH]. }
    apply HP; apply elem_of_seq; unfold off, ks; lia. }
  apply HF. intros [i1 i2] Hp. apply elem_pairs in Hp as [A B]. cbn [fst snd] in *. apply elem_of_seq in A, B. destruct (Hcol i1 i2) as [Fc Vc]; [unfold off, ks in *; lia..|].
  destruct (N1 (i1 - (o1 - off))%nat) as [Fa Va]; [lia|]. destruct (N2 (i2 - (o2 - off))%nat) as [Fb Vb]; [lia|].
  destruct (mul_exact (nth (i1 - (o1 - off)) w1 zero32) (nth (i2 - (o2 - off)) w2 zero32) (if decide (i1 = o1 /\ i2 = o2) then 1 else 0) Fa Fb) as [Fm Vm].
  { rewrite Va, Vb. unfold one_at. destruct (decide (i1 - (o1 - off) = off)%nat), (decide (i2 - (o2 - off) = off)%nat), (decide (i1 = o1 /\ i2 = o2)); try lra; lia. }
  { destruct (decide (i1 = o1 /\ i2 = o2)); [|apply generic_format_0]. change 1 with (bpow radix2 0). apply generic_format_bpow. unfold FLT_exp. lia. }
  { pose proof pow110. destruct (decide (i1 = o1 /\ i2 = o2)); [rewrite Rabs_R1|rewrite Rabs_R0]; lra. }
  split; [exact Fc|]. split; [exact Fm|]. rewrite Vc, Vm. destruct (decide (i1 = o1 /\ i2 = o2)) as [[-> ->]|Hne].
  - rewrite decide_True by done. ring.
  - rewrite decide_False by (intros [= -> ->]; by apply Hne). ring.
Qed.
Print Assumptions C74_nodes.

(** The position of sample [s]: near to start + s * delta. *)
Theorem C74_positions (start delta : f32) (s : nat) : is_finite start = true -> is_finite delta = true -> INR s <= 2 ^ 24 -> Rabs (B2R start) <= 2 ^ 100 -> Rabs (INR s * B2R delta) <= 2 ^ 100 ->
  is_finite (inner_ind32 start delta s) = true /\
  Rabs (B2R (inner_ind32 start delta s) - (B2R start + INR s * B2R delta)) <= (Rabs (B2R start) + 3 * Rabs (INR s * B2R delta)) / 2 ^ 24 + / 2 ^ 140.
Proof.
  intros Fs Fd Hn Hs Hd. assert (N.of_nat s <= 2 ^ 24)%N as HN. { assert (2 ^ 24 = IZR (2 ^ 24)) as E' by (simpl pow; lra). rewrite E', INR_IZR_INZ in Hn. apply le_IZR in Hn. lia. }
  destruct (of_size_value _ HN) as [Fo Vo]. assert (real (N.of_nat s) = INR s) as Er. { unfold real. rewrite nat_N_Z, <- INR_IZR_INZ. reflexivity. } rewrite Er in Vo.
  assert (8 * 2 ^ 100 <= 2 ^ 110) as P. { change 110%nat with (10 + 100)%nat. rewrite pow_add. pose proof (pow_le 2 100 ltac:(lra)). simpl (2 ^ 10). lra. } assert (1 <= 2 ^ 100) as P1. { apply Rle_trans with (2 ^ 0); [simpl; lra|apply Rle_pow; [lra|lia]]. }
  destruct (mult_near (of_size (N.of_nat s)) delta Fo Fd) as [Fm Vm]; [rewrite Vo; lra|]. rewrite Vo in Vm. set (m := mul (of_size (N.of_nat s)) delta) in *. set (t := Rabs (INR s * B2R delta)) in *.
  pose proof eta_small as [Z0 Z1]. pose proof eta_50. assert (0 <= t) as Ht by apply Rabs_pos.
  assert (Rabs (B2R start + B2R m) <= Rabs (B2R start) + t + (t * u + eta)) as Hsm.
  { replace (B2R start + B2R m) with (B2R start + INR s * B2R delta + (B2R m - INR s * B2R delta)) by ring. eapply Rle_trans; [apply Rabs_triang|]. apply Rplus_le_compat; [|exact Vm]. apply Rabs_triang. }
  destruct (plus_near start m Fs Fm) as [F V]; [lra|]. unfold inner_ind32. fold m. split; [exact F|].
  replace (B2R (add start m) - (B2R start + INR s * B2R delta)) with ((B2R (add start m) - (B2R start + B2R m)) + (B2R m - INR s * B2R delta)) by ring.
  eapply Rle_trans; [apply Rabs_triang|]. assert (2 ^ 24 = 16777216) as -> by (simpl pow; lra). lra.
Qed.
Print Assumptions C74_positions.

(** The theorems are not vacuous: an array, positions and a bound that they accept. *)
Example C74_nonvacuous :
  let arr := anew 2 one32 [5; 5; 6]%nat in
  api_array 2 arr /\ a_shape arr = [5; 5; 6]%nat /\ position (of_size 2) 2 0 /\ position (binary_normalize 24 128 _ _ mode_NE 5 (-1) false) 2 (1 / 2) /\ room 2 5 2 /\
  (forall s, (s < 2)%nat -> position (inner_ind32 (of_size 1) (of_size 1) s) (1 + s) 0 /\ room 2 6 (1 + s)) /\
  (forall i j k c, (i < 5)%nat -> (j < 5)%nat -> (k < 6)%nat -> (c < 2)%nat -> bounded_by 1 (component 2 arr [i; j; k] c)).
Proof.
  split; [by constructor|]. split; [reflexivity|]. assert (forall n, (n <= 4)%N -> has_value (of_size n) (real n)) as HV. { intros n Hn. apply of_size_value. lia. }
  assert (4 < 2 ^ 24) as P4 by (simpl pow; lra).
  split. { destruct (HV 2%N ltac:(lia)) as [F V]. change (real 2) with 2 in V. split; [exact F|]. split; [lra|]. rewrite V. change (INR 2) with 2. lra. }
  split. { split; [reflexivity|]. split; [lra|]. change (INR 2) with 2. split; [|lra]. rewrite <- (SF2R_B2SF 24 128). replace (B2SF (binary_normalize 24 128 _ _ mode_NE 5 (-1) false)) with (SpecFloat.S754_finite false 10485760 (-22)) by (vm_compute; reflexivity). unfold SF2R, F2R. cbn [Fnum Fexp cond_Zopp]. rewrite bpow_neg. change (2 ^ 22)%Z with 4194304%Z. lra. }
  split; [unfold room; lia|]. split.
  - intros s Hs. split; [|unfold room; lia]. 
    destruct s as [|[|s]]; [| |lia].
    + assert (has_value (inner_ind32 (of_size 1) (of_size 1) 0) 1) as [F' V']. { apply sf_one. vm_compute. reflexivity. } split; [exact F'|]. split; [lra|]. rewrite V'. cbn [Nat.add]. change (INR 1) with 1. change (INR 2) with 2. lra.
    + assert (has_value (inner_ind32 (of_size 1) (of_size 1) 1) 2) as [F' V'].
      { split; [reflexivity|]. rewrite <- (SF2R_B2SF 24 128). replace (B2SF (inner_ind32 (of_size 1) (of_size 1) 1)) with (SpecFloat.S754_finite false 8388608 (-22)) by (vm_compute; reflexivity). unfold SF2R, F2R. cbn [Fnum Fexp cond_Zopp]. rewrite bpow_neg. change (2 ^ 22)%Z with 4194304%Z. lra. }
      split; [exact F'|]. split; [lra|]. rewrite V'. cbn [Nat.add]. change (INR 1) with 1. change (INR 2) with 2. lra.
  - intros i j k c Hi Hj Hk Hc. assert (component 2 (anew 2 one32 [5; 5; 6]%nat) [i; j; k] c = one32) as ->.
    { do 5 (destruct i as [|i]; [do 5 (destruct j as [|j]; [do 6 (destruct k as [|k]; [do 2 (destruct c as [|c]; [reflexivity|]); lia|]); lia|]); lia|]). lia. }
    destruct one_value as [F V]. split; [exact F|]. rewrite V, Rabs_R1. lra.
Qed.
