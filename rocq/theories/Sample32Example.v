(** C76: the theorem about the samples is not vacuous. *)
From stdpp Require Import base list list_numbers numbers option.
From Coq Require Import Reals ZArith Bool Lra Lia Psatz.
From Flocq Require Import Core IEEE754.BinarySingleNaN.
From Verif Require Import NDArrayModel BBoxModel ChunkMetaModel InterpModel SignalModel AntennaModel AntennaSpec AntennaProps DiscreteModel DiscreteSpec DiscreteProps.
From Verif Require Import Interp32Model Interp32Spec Interp32Weights Interp32Props Signal32Model Signal32Spec Signal32Props Signal32Whole Signal32Error Signal32Any Chunk32Spec Chunk32Props Chunk32Loop Chunk32Contrib Chunk32Signal Track32Props Track32Signal Sample32Props.
Local Open Scope R_scope.

Lemma filter_sub {A} (P : A -> Prop) `{forall x, Decision (P x)} l : sublist (filter P l) l.
Proof. induction l as [|x l IH]; [constructor|]. rewrite filter_cons. case_decide; by constructor. Qed.
(** The track of Track32Signal: the second sample is the sum of the contributions of some of the two points, up to the error; it is -1/4. *)
Example C76_sample_nonvacuous : exists s' y' ps es, apply_accumulate32 plus_float 100 100 ex_green linear32 false ex_seg4 zero32 one32 3 one32 [zero32; zero32; zero32; zero32] = Some s' /\ s' !! 1%nat = Some y' /\
  B2R y' = - (1 / 4) /\ sublist ps [0%nat; 1%nat] /\ length es = length ps /\
  Rabs (B2R y' - (0 + sum es)) <= INR (length ps) * (product_error (1 / 2 ^ 20 + / 2 ^ 140) 1 1 1 + 11 / 10 * / 2 ^ 24 * (0 + INR 2 * (2 * 1 * 1 * 1 + product_error (1 / 2 ^ 20 + / 2 ^ 140) 1 1 1))).
Proof.
  destruct C76_track_nonvacuous as (Hu & _ & _ & Ht & Hp & Hr). destruct one_value as [F V]. assert (B2R zero32 = 0) as Z by reflexivity.
  apply fmap_Some in Hr as (s' & H & Hr). exists s'.
  assert (0 <= / 2 ^ 24 <= / 2 ^ 24) as Hv by (split; [left; apply Rinv_0_lt_compat, pow_lt; lra|lra]). assert (2 ^ 30 = 1073741824) as E30 by (simpl pow; lra). assert (2 ^ 20 = 1048576) as E20 by (simpl pow; lra). assert (2 ^ 21 = 2097152) as E21 by (simpl pow; lra).
  assert (1 <= 2 ^ 90) as P90. { apply Rle_trans with (2 ^ 0); [simpl; lra|apply Rle_pow; [lra|lia]]. } assert (0 < 2 ^ 110) as P110 by (apply pow_lt; lra).
  destruct (C76_sample plus_float B2R (fun y => is_finite y = true) (/ 2 ^ 24) 100 100 ex_green linear32 1 linear_weight (fun M => M / 2 ^ 20 + / 2 ^ 140) ex_grid 1 1 1 1 9 ex_seg4 zero32 one32 3 1 one32 [zero32; zero32; zero32; zero32] s' adds_float Hv) as (c & _ & _ & HC);
    [lia|lia|exact kernel_linear|exact ex_library|lra|apply ex_bounded|exact Ht|exact Hu|rewrite E20; simpl; lra|..|exact H|].
  - cbn [h_start h_interval ex_green]. unfold f32 in *. repeat (constructor; [split; [reflexivity|rewrite ?Z, ?V, ?Rabs_R0, ?Rabs_R1; lra]|]). constructor.
  - unfold f32 in *. rewrite V. lra.
  - unfold f32 in *. rewrite V. lra.
  - unfold f32 in *. rewrite V. lra.
  - unfold f32 in *. rewrite Z. lra.
  - unfold f32 in *. rewrite V. unfold Rdiv. rewrite Rinv_1, Rmult_1_r. rewrite <- Rinv_1. apply Rinv_le_contravar; [lra|]. apply Rle_trans with (2 ^ 0); [simpl; lra|apply Rle_pow; [lra|lia]].
  - cbn [s32_t0 s32_t1 ex_seg4]. unfold any_error. unfold f32 in *. rewrite Z, V, E20, Rabs_R0, Rabs_R1. assert (2 ^ 24 = 16777216) as E24 by (simpl pow; lra). rewrite E24. assert (/ 2 ^ 120 <= 1). { rewrite <- Rinv_1. apply Rinv_le_contravar; [lra|]. apply Rle_trans with (2 ^ 0); [simpl; lra|apply Rle_pow; [lra|lia]]. } simpl INR. lra.
  - rewrite E21. lra.
  - unfold f32 in *. rewrite Z, V. exact Hp.
  - intros p Hp1 s wp. assert (B2SF s.1 = SpecFloat.S754_zero false /\ B2SF s.2 = SpecFloat.S754_finite false 8388608 (-25) /\ B2SF wp = SpecFloat.S754_finite true 8388608 (-24)) as (S1 & S2 & S3). { unfold s, wp. destruct p as [|[|p]]; [| |lia]; vm_compute; split_and!; reflexivity. } clearbody s wp.
    assert (B2R s.1 = 0) as V1 by (rewrite <- (SF2R_B2SF 24 128), S1; reflexivity).
    assert (B2R s.2 = 1 / 4) as V2. { rewrite <- (SF2R_B2SF 24 128), S2. unfold SF2R, F2R. cbn [Fnum Fexp cond_Zopp]. rewrite bpow_neg. change (2 ^ 25)%Z with 33554432%Z. lra. }
    assert (B2R wp = - (1 / 2)) as V3. { rewrite <- (SF2R_B2SF 24 128), S3. unfold SF2R, F2R. cbn [Fnum Fexp cond_Zopp]. change (- (8388608))%Z with (-8388608)%Z. rewrite bpow_neg. change (2 ^ 24)%Z with 16777216%Z. lra. }
    assert (forall x : binary_float 24 128, is_finite_SF (B2SF x) = is_finite x) as HFx by (intros []; reflexivity). unfold f32 in *. rewrite <- !HFx, S1, S2, S3, V1, V2, V3. split; [reflexivity|]. split; [reflexivity|]. rewrite Rabs_Ropp, Rabs_R0, (Rabs_pos_eq (1 / 4)), (Rabs_pos_eq (1 / 2)) by lra. split; [lra|]. split; [reflexivity|lra].
  - rewrite E30. lra.
  - rewrite E30. lra.
  - destruct (HC 1%nat zero32 eq_refl) as (y' & Hy' & _ & HS). specialize (HS ltac:(lia) eq_refl). unfold f32 in *. rewrite Z, Rabs_R0 in HS. specialize (HS ltac:(lra)). cbv zeta in HS. destruct HS as (es & He & _ & HE).
    exists y', (filter (fun p => (c p <= 1)%nat) (seq 0 (1 + 1))), es. split; [exact H|]. split; [exact Hy'|]. split. { assert ((map B2SF s') !! 1%nat = Some (B2SF y')) as Hl by (rewrite list_lookup_fmap, Hy'; reflexivity). unfold f32 in *. rewrite <- Hr in Hl. assert (forall a b c d : SpecFloat.spec_float, [a; b; c; d] !! 1%nat = Some b) as Hl1 by reflexivity. cbn [map app] in Hl. rewrite Hl1 in Hl. injection Hl as Hl. assert (B2SF y' = SpecFloat.S754_finite true 8388608 (-25)) as Hs. { rewrite <- Hl. vm_compute. reflexivity. }
      rewrite <- (SF2R_B2SF 24 128), Hs. unfold SF2R, F2R. cbn [Fnum Fexp cond_Zopp]. change (- (8388608))%Z with (-8388608)%Z. rewrite bpow_neg. change (2 ^ 25)%Z with 33554432%Z. lra. }
    split; [exact (filter_sub (fun p => (c p <= 1)%nat) (seq 0 (1 + 1)))|]. split; [symmetry; exact (Forall2_length _ _ _ He)|]. exact HE.
Qed.
