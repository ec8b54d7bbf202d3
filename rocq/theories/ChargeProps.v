(** C79: the trajectory of the moving point charge. *)
From stdpp Require Import base list list_numbers numbers option.
From Coq Require Import Reals ZArith Bool Lra Lia.
From Flocq Require Import Core IEEE754.BinarySingleNaN.
From Verif Require Import AntennaModel AntennaSpec AntennaProps Signal32Model Signal32Any TableModel ChargeModel.
Local Open Scope R_scope.
Local Notation fexp32 := (FLT_exp (-149) 24).
Local Notation rnd32 := (round radix2 fexp32 ZnearestE).

(** Tracks that join up: each one starts where and when the one before ends. *)
Fixpoint joined (tracks : list segment32) : Prop :=
  match tracks with
  | s :: (s' :: _) as rest => s32_start s' = s32_end s /\ s32_t0 s' = s32_t1 s /\ joined rest
  | _ => True
  end.
Lemma loop_step fuel charge beta b d tend (t : f32) : charge_loop (S fuel) charge beta b d tend t =
  if Bltb t tend then if Bleb (Bplus mode_NE t d) t then Some Throws else
    obind (fun tracks => Returns (Segment32 (Bmult mode_NE beta t, B754_zero false, b) (Bmult mode_NE beta (Bplus mode_NE t d), B754_zero false, b) t (Bplus mode_NE t d) (charge t) :: tracks)) <$> charge_loop fuel charge beta b d tend (Bplus mode_NE t d)
  else Some (Returns []).
Proof. cbn [charge_loop]. unfold line_segment. destruct (Bltb t tend); [|reflexivity]. destruct (Bleb _ t); reflexivity. Qed.
(** The tracks of the loop: they join up, the first one starts at the first time, the last one is the first that does not end before the last time, all have the
    charge of their first time and are at the height b, and the time goes forwards in each. *)
Theorem C79_joined fuel charge beta b d tend (t0 : f32) tracks : charge_loop fuel charge beta b d tend t0 = Some (Returns tracks) ->
  joined tracks /\ (forall s, head tracks = Some s -> s32_t0 s = t0) /\ (tracks = [] <-> Bltb t0 tend = false) /\ (forall s, list.last tracks = Some s -> Bltb (s32_t1 s) tend = false) /\
  (forall s, s ∈ tracks -> Bltb (s32_t0 s) tend = true /\ Bleb (s32_t1 s) (s32_t0 s) = false /\ s32_t1 s = Bplus mode_NE (s32_t0 s) d /\ s32_charge s = charge (s32_t0 s) /\
    s32_start s = (Bmult mode_NE beta (s32_t0 s), B754_zero false, b) /\ s32_end s = (Bmult mode_NE beta (s32_t1 s), B754_zero false, b)).
Proof.
  revert t0 tracks. induction fuel as [|fuel IH]; intros t0 tracks H; [done|]. rewrite loop_step in H. destruct (Bltb t0 tend) eqn:EL.
  - destruct (Bleb (Bplus mode_NE t0 d) t0) eqn:EB; [done|]. unfold f32 in *. destruct (charge_loop fuel charge beta b d tend (Bplus mode_NE t0 d)) as [o|] eqn:E; [|done]. cbn in H. destruct o as [rest| |]; cbn in H; try done. injection H as <-.
    destruct (IH _ _ E) as (J & Hh & He & Hl & Hall). split_and!.
    + destruct rest as [|s rest]; [exact I|]. pose proof (Hh s eq_refl) as Hs. destruct (Hall s ltac:(left)) as (_ & _ & _ & _ & P & _). cbn [joined]. cbn [s32_end s32_t1]. rewrite P, Hs. split_and!; [reflexivity|reflexivity|exact J].
    + intros s [= <-]. reflexivity.
    + split; [done|]. intros C. congruence.
    + intros s Hs. destruct rest as [|s' rest]; [injection Hs as <-; apply He; reflexivity|]. apply Hl. exact Hs.
    + intros s Hs. apply elem_of_cons in Hs as [->|Hs]; [|by apply Hall]. cbn. split_and!; try reflexivity; assumption.
  - injection H as <-. split_and!; [exact I|done|done|done|]. intros s Hs. by apply elem_of_nil in Hs.
Qed.

(** * The loop ends *)
Lemma multiple_of (x : f32) : exists k : Z, B2R x = IZR k * bpow radix2 (-149).
Proof.
  pose proof (format32 x) as G. apply FLT_format_generic in G; [|typeclasses eauto]. destruct G as [[m e] E _ He]. cbn [Fnum Fexp] in *. exists (m * 2 ^ (e + 149))%Z. rewrite E. unfold F2R. cbn [Fnum Fexp]. rewrite mult_IZR, Rmult_assoc. f_equal.
  change 2%Z with (radix_val radix2). rewrite IZR_Zpower by lia. rewrite <- bpow_plus. f_equal. lia.
Qed.
(** Whatever the numbers are, the loop is over after finitely many rounds (perhaps with an exception). *)
Theorem C79_ends charge beta b d (tend t0 : f32) : is_finite tend = true -> is_finite t0 = true -> exists fuel r, charge_loop fuel charge beta b d tend t0 = Some r.
Proof.
  intros Fe. destruct (multiple_of tend) as [ke Ke].
  assert (forall n (t : f32) k, is_finite t = true -> B2R t = IZR k * bpow radix2 (-149) -> (ke - k < Z.of_nat n)%Z -> exists fuel r, charge_loop fuel charge beta b d tend t = Some r) as H.
  { intros n. induction n as [|n IH]; intros t k Ft Ek Hk.
    - exists 1%nat, (Returns []). rewrite loop_step. rewrite Bltb_correct by assumption. rewrite Rlt_bool_false; [reflexivity|]. rewrite Ek, Ke. apply Rmult_le_compat_r; [apply bpow_ge_0|]. apply IZR_le. lia.
    - destruct (Bltb t tend) eqn:EL; [|exists 1%nat, (Returns []); rewrite loop_step; unfold f32 in *; by rewrite EL]. destruct (Bleb (Bplus mode_NE t d) t) eqn:EB; [exists 1%nat, Throws; rewrite loop_step; unfold f32 in *; by rewrite EL, EB|].
      set (t' := Bplus mode_NE t d) in *. assert (exists fuel r, charge_loop fuel charge beta b d tend t' = Some r) as (fuel & r & Hf).
      { destruct (is_finite t') eqn:Ft'.
        - destruct (multiple_of t') as [k' Ek']. apply (IH t' k' Ft' Ek'). rewrite Bleb_correct in EB by assumption. destruct (Rle_dec (B2R t') (B2R t)) as [L|L]; [rewrite Rle_bool_true in EB by exact L; discriminate|]. rewrite Ek, Ek' in L. assert (k < k')%Z; [|lia]. apply lt_IZR. apply Rnot_le_lt. intros C. apply L. apply Rmult_le_compat_r; [apply bpow_ge_0|exact C].
        - exists 1%nat, (Returns []). rewrite loop_step. assert (Bltb t' tend = false) as Eb; [|unfold f32 in *; by rewrite Eb]. clearbody t'. unfold f32 in *. clear - Ft' EB Ft Fe. destruct t' as [s|s| |s m e p]; try done; destruct s; try (destruct tend as [[]|[]| |[] ? ? ?]; done); destruct t as [[]|[]| |[] ? ? ?]; done. }
      exists (S fuel). rewrite loop_step. unfold f32 in *. change (Bplus mode_NE t d) with t'. rewrite EL, EB, Hf. eexists. reflexivity. }
  intros F0. destruct (multiple_of t0) as [k0 K0]. apply (H (Z.to_nat (ke - k0 + 1)) t0 k0 F0 K0). lia.
Qed.

(** * Whole numbers *)
Definition whole (x : f32) (k : Z) : Prop := is_finite x = true /\ B2R x = IZR k.
Lemma whole_format k : (Z.abs k <= 2 ^ 24)%Z -> generic_format radix2 fexp32 (IZR k).
Proof.
  intros H. destruct (Z.eq_dec (Z.abs k) (2 ^ 24)) as [E|E].
  - assert (k = 2 ^ 24 \/ k = - 2 ^ 24)%Z as [-> | ->] by lia; apply generic_format_FLT; [exists (Float radix2 (2 ^ 23) 1)|exists (Float radix2 (- 2 ^ 23) 1)]; cbn [Fnum Fexp]; try (change (Zpower radix2 24) with (2 ^ 24)%Z; lia); unfold F2R; cbn [Fnum Fexp]; change (bpow radix2 1) with 2; rewrite <- mult_IZR; f_equal.
  - apply generic_format_FLT. exists (Float radix2 k 0); cbn [Fnum Fexp]; [|change (Zpower radix2 24) with (2 ^ 24)%Z; lia|lia]. unfold F2R. cbn. ring.
Qed.
Lemma whole_plus (x y : f32) j k : whole x j -> whole y k -> (Z.abs (j + k) <= 2 ^ 24)%Z -> whole (Bplus mode_NE x y) (j + k).
Proof.
  intros [Fx Ex] [Fy Ey] H. assert (Rabs (B2R x + B2R y) <= bpow radix2 127) as Hb. { rewrite Ex, Ey, <- plus_IZR, <- abs_IZR. apply Rle_trans with (bpow radix2 24); [|apply bpow_le; lia]. change (bpow radix2 24) with (IZR (2 ^ 24)). apply IZR_le, H. }
  destruct (plus_value x y Fx Fy Hb) as [F V]. split; [exact F|]. unfold f32 in *. rewrite V, Ex, Ey, <- plus_IZR. apply round_generic; [typeclasses eauto|apply whole_format, H].
Qed.
(** With whole numbers up to 2^24 the tracks are exactly the steps from the first time to the last one; the positions are the products beta t, rounded once. *)
Theorem C79_whole charge beta b (d tend t0 : f32) k0 k1 : whole d 1 -> whole t0 k0 -> whole tend k1 -> (- 2 ^ 24 <= k0)%Z -> (k0 <= k1 <= 2 ^ 24)%Z -> is_finite beta = true -> Rabs (B2R beta) <= 1 ->
  exists tracks, charge_loop (S (Z.to_nat (k1 - k0))) charge beta b d tend t0 = Some (Returns tracks) /\ length tracks = Z.to_nat (k1 - k0) /\
    forall i s, tracks !! i = Some s -> let k := (k0 + Z.of_nat i)%Z in whole (s32_t0 s) k /\ whole (s32_t1 s) (k + 1) /\ is_finite (s32_start s).1.1 = true /\ B2R (s32_start s).1.1 = rnd32 (B2R beta * IZR k) /\ B2R (s32_end s).1.1 = rnd32 (B2R beta * IZR (k + 1)).
Proof.
  intros Hd H0 H1 Hlo Hhi Fb Hb. assert (forall n t k, whole t k -> (k0 <= k)%Z -> (k + Z.of_nat n = k1)%Z -> exists tracks, charge_loop (S n) charge beta b d tend t = Some (Returns tracks) /\ length tracks = n /\
    forall i s, tracks !! i = Some s -> let j := (k + Z.of_nat i)%Z in whole (s32_t0 s) j /\ whole (s32_t1 s) (j + 1) /\ is_finite (s32_start s).1.1 = true /\ B2R (s32_start s).1.1 = rnd32 (B2R beta * IZR j) /\ B2R (s32_end s).1.1 = rnd32 (B2R beta * IZR (j + 1))) as H.
  2:{ apply (H (Z.to_nat (k1 - k0)) t0 k0 H0); lia. }
  assert (forall (x : f32) k, whole x k -> (Z.abs k <= 2 ^ 24)%Z -> is_finite (Bmult mode_NE beta x) = true /\ B2R (Bmult mode_NE beta x) = rnd32 (B2R beta * IZR k)) as HM.
  { intros x k [Fx Ex] Hk. pose proof (Bmult_correct 24 128 _ _ mode_NE beta x) as HB. change (round_mode mode_NE) with ZnearestE in HB. change (SpecFloat.fexp 24 128) with fexp32 in HB. unfold f32 in *. rewrite Ex in HB. rewrite Rlt_bool_true in HB.
    - destruct HB as (E & F & _). rewrite Fb, Fx in F. split; assumption.
    - apply below_32. rewrite Rabs_mult, <- abs_IZR. apply Rle_trans with (1 * IZR (2 ^ 24)); [apply Rmult_le_compat; [apply Rabs_pos|apply IZR_le; lia|exact Hb|apply IZR_le, Hk]|]. rewrite Rmult_1_l. change (IZR (2 ^ 24)) with (bpow radix2 24). apply bpow_le. lia. }
  intros n. induction n as [|n IH]; intros t k Ht Hk Hn.
  - exists []. split_and!; [|reflexivity|done]. rewrite loop_step. destruct Ht as [Ft Et], H1 as [F1 E1]. rewrite Bltb_correct by assumption. unfold f32 in *. rewrite Et, E1, Rlt_bool_false; [reflexivity|]. apply IZR_le. lia.
  - pose proof (whole_plus t d k 1 Ht Hd ltac:(lia)) as Ht'. destruct (IH (Bplus mode_NE t d) (k + 1)%Z Ht' ltac:(lia) ltac:(lia)) as (tracks & E & L & P).
    rewrite loop_step. pose proof Ht as [Ft Et]. pose proof H1 as [F1 E1]. pose proof Ht' as [Ft' Et']. rewrite Bltb_correct by assumption. unfold f32 in *. rewrite Et, E1, Rlt_bool_true by (apply IZR_lt; lia). rewrite Bleb_correct by assumption. rewrite Et, Et', Rle_bool_false by (apply IZR_lt; lia). rewrite E. cbn [fmap option_fmap option_map obind].
    eexists. split; [reflexivity|]. split; [cbn [length]; by rewrite L|]. intros i s Hs. destruct i as [|i].
    + injection Hs as <-. cbn [s32_t0 s32_t1 s32_start s32_end fst snd]. replace (k + Z.of_nat 0)%Z with k by lia. destruct (HM t k Ht ltac:(lia)) as [M1 M2]. destruct (HM _ (k + 1)%Z Ht' ltac:(lia)) as [_ M4]. split_and!; assumption.
    + cbn in Hs. specialize (P i s Hs). cbn zeta in P |- *. replace (k + Z.of_nat (S i))%Z with (k + 1 + Z.of_nat i)%Z by lia. exact P.
Qed.
(** Beyond 2^24 the time does not go on: an exception is thrown. *)
Definition whole_float (k : Z) : f32 := binary_normalize 24 128 _ _ mode_NE k 0 false.
Theorem C79_large_times_throws charge beta b : charge_loop 1 charge beta b (whole_float 1) (whole_float (2 ^ 24 + 2)) (whole_float (2 ^ 24)) = Some Throws.
Proof. rewrite loop_step. assert (Bltb (whole_float (2 ^ 24)) (whole_float (2 ^ 24 + 2)) = true) as -> by (vm_compute; reflexivity). assert (Bleb (Bplus mode_NE (whole_float (2 ^ 24)) (whole_float 1)) (whole_float (2 ^ 24)) = true) as -> by (vm_compute; reflexivity). reflexivity. Qed.
(** The example: from -250 to 250 in steps of 1, beta = 0.9. *)
Lemma whole_250 : whole (whole_float (-250)) (-250) /\ whole (whole_float 250) 250 /\ whole (whole_float 1) 1.
Proof. split_and!; (split; [reflexivity|]); rewrite <- SF2R_B2SF; vm_compute; lra. Qed.
Definition beta_09 : f32 := binary_normalize 24 128 _ _ mode_NE 15099494 (-24) false.
Example C79_nonvacuous : whole (whole_float 1) 1 /\ whole (whole_float (-250)) (-250) /\ whole (whole_float 250) 250 /\ is_finite beta_09 = true /\ Rabs (B2R beta_09) <= 1.
Proof. destruct whole_250 as (A & B & C). split_and!; try assumption; [reflexivity|]. rewrite <- SF2R_B2SF. assert (SF2R radix2 (B2SF beta_09) = IZR 15099494 / IZR 16777216) as -> by (vm_compute; lra). rewrite Rabs_pos_eq; lra. Qed.
(** So the example has 500 tracks. *)
Theorem C79_example charge b : exists tracks, charge_loop 501 charge beta_09 b (whole_float 1) (whole_float 250) (whole_float (-250)) = Some (Returns tracks) /\ length tracks = 500%nat.
Proof. destruct C79_nonvacuous as (H1 & H2 & H3 & H4 & H5). destruct (C79_whole charge beta_09 b _ _ _ (-250) 250 H1 H2 H3 ltac:(lia) ltac:(lia) H4 H5) as (tracks & E & L & _). exists tracks. split; [exact E|exact L]. Qed.
