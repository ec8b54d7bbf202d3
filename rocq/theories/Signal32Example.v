(** C75: a concrete track meets the hypotheses. *)
From stdpp Require Import base list list_numbers numbers option.
From Coq Require Import Reals ZArith Bool Lra Lia.
From Flocq Require Import Core IEEE754.BinarySingleNaN.
From Verif Require Import NDArrayModel BBoxModel ChunkMetaModel InterpModel SignalModel AntennaModel AntennaSpec AntennaProps DiscreteModel DiscreteSpec DiscreteProps.
From Verif Require Import Interp32Model Interp32Spec Interp32Weights Signal32Model Signal32Spec Signal32Props Signal32Whole Signal32Signal Signal32Error.
Local Open Scope R_scope.

(** A track from (0, 0, 0) to (3, 0, 0) between the times 2 and 5, sampled every 2 from 0; the callee counts the contributions to every element. *)
Definition ex_seg : segment32 := Segment32 (zero32, zero32, zero32) (of_size 3, zero32, zero32) (of_size 2) (of_size 5) one32.
Definition ex_count (rz : f32 * f32) (conv : f32) (m : nat) (source : f32 * f32) (first : nat) (w : f32) (sig : list nat) : option (list nat) :=
  Some (changed (fun j y => if ((first <=? j) && (j <? first + m))%nat then S y else y) sig).
(** The elements that the samples 0, ..., 6 consist of: point [p] is at the time 2 + p, sample [j] at the time 2 j. *)
Example C75_signal_example : apply_accumulate_with ex_count 3 4 ex_seg zero32 (of_size 2) 6 one32 [0; 0; 0; 0; 0; 0; 0]%nat = Some [0; 1; 3; 4; 4; 4; 0]%nat.
Proof. vm_compute. reflexivity. Qed.

Lemma ex_small k : (k <= 1000)%N -> on_grid 0 (of_size k) /\ B2R (of_size k) = real k.
Proof.
  intros Hk. destruct (of_size_value k) as [F V]; [apply N.le_trans with 1000%N; [exact Hk|discriminate]|]. split; [|exact V].
  split; [exact F|]. rewrite V. unfold real. split.
  - exists (Z.of_N k). simpl (bpow radix2 0). ring.
  - unfold reach. simpl (bpow radix2 _). rewrite Rabs_pos_eq by (apply IZR_le; lia). apply IZR_le. lia.
Qed.
Lemma ex_zero : on_grid 0 zero32 /\ B2R zero32 = 0.
Proof. split; [|reflexivity]. split; [reflexivity|]. split; [exists 0%Z; simpl; ring|]. simpl B2R. rewrite Rabs_R0. apply Rlt_le, bpow_gt_0. Qed.

(** The hypotheses of C75_signal for this track; its conclusion. *)
Example C75_signal_nonvacuous : exists c, (forall p j, (p <= 3)%nat -> (c p <= j)%nat <-> point_time (B2R (s32_t0 ex_seg)) 1 p <= sample_time (B2R zero32) (B2R (of_size 2)) j) /\
  apply_accumulate_with ex_count 3 4 ex_seg zero32 (of_size 2) 6 one32 [0; 0; 0; 0; 0; 0; 0]%nat
  = Some (changed (fun j y => if (j <? 6)%nat then foldl (fun y p => if Rle_dec (point_time (B2R (s32_t0 ex_seg)) 1 p) (sample_time (B2R zero32) (B2R (of_size 2)) j) then S y else y) y (seq 0 4) else y) [0; 0; 0; 0; 0; 0; 0]%nat).
Proof.
  destruct (ex_small 2) as [G2 V2]; [discriminate|]. destruct (ex_small 5) as [G5 V5]; [discriminate|]. destruct ex_zero as [G0 V0]. unfold real in V2, V5. simpl Z.of_N in V2, V5.
  assert (forall p j, (p <= 3)%nat -> ((p + 3) / 2 <= j)%nat <-> point_time (B2R (s32_t0 ex_seg)) 1 p <= sample_time (B2R zero32) (B2R (of_size 2)) j) as Hc.
  { intros p j Hp. unfold point_time, sample_time. simpl s32_t0. rewrite V0, V2. rewrite !INR_IZR_INZ. assert ((p + 3) / 2 <= j <-> p + 2 <= 2 * j)%nat as ->.
    { pose proof (Nat.div_mod (p + 3) 2 ltac:(lia)). pose proof (Nat.mod_upper_bound (p + 3) 2 ltac:(lia)). lia. }
    replace (2 + IZR (Z.of_nat p) * 1) with (IZR (2 + Z.of_nat p)) by (rewrite plus_IZR; ring). replace (0 + IZR (Z.of_nat j) * 2) with (IZR (2 * Z.of_nat j)) by (rewrite mult_IZR; ring).
    split; intros H; [apply IZR_le; lia|apply le_IZR in H; lia]. }
  exists (fun p => (p + 3) / 2)%nat. split; [exact Hc|].
  apply (C75_signal ex_count 3 4 ex_seg zero32 (of_size 2) 6 3 one32 0 (fun p => (p + 3) / 2)%nat (fun _ _ _ => S)); try lia; try assumption.
  - unfold time_grid. lia.
  - rewrite V2. lra.
  - simpl s32_t1. simpl s32_t0. rewrite V2, V5. simpl INR. lra.
  - simpl s32_t0. rewrite V2, V0, Rabs_R0, Rabs_pos_eq by lra. unfold reach. simpl (bpow radix2 _). simpl INR. lra.
  - simpl. lia.
  - intros. reflexivity.
Qed.
(** 396 samples of a step 1 are in a chunk that ends at index 400, from index 5 on. *)
Example C75_chunk_samples_nonvacuous : exists m, samples_from_chunk 400 (of_size 5) (of_size 1) 1000 = Some m /\ (0 < m <= 1000)%nat /\
  sample_time (B2R (of_size 5)) (B2R (of_size 1)) (m - 1) <= real 400 /\ (m = 1000%nat \/ real 400 < sample_time (B2R (of_size 5)) (B2R (of_size 1)) m).
Proof.
  destruct (ex_small 5) as [G5 V5]; [discriminate|]. destruct (ex_small 1) as [G1 V1]; [discriminate|].
  apply (C75_chunk_samples 0); try assumption; try lia; try (unfold time_grid; lia); rewrite ?V5, ?V1; unfold real, reach; simpl; lra.
Qed.
Example C75_chunk_samples_example : samples_from_chunk 400 (of_size 5) (of_size 1) 1000 = Some 396%nat.
Proof. vm_compute. reflexivity. Qed.
(** The track of C75_causality_refuted: the choice of the sample is right up to the error. *)
Example C75_time_error_nonvacuous : exists c, causal_sample32 ex_6_3 zero32 ex_0_7 = Some c /\ is_finite (conv_start32 ex_6_3 zero32 ex_0_7 c) = true /\
    B2R ex_6_3 - time_error (B2R ex_6_3) (B2R zero32) (B2R ex_0_7) <= sample_time (B2R zero32) (B2R ex_0_7) c < B2R ex_6_3 + B2R ex_0_7 + time_error (B2R ex_6_3) (B2R zero32) (B2R ex_0_7) /\
    Rabs (B2R (conv_start32 ex_6_3 zero32 ex_0_7 c) - (sample_time (B2R zero32) (B2R ex_0_7) c - B2R ex_6_3)) <= time_error (B2R ex_6_3) (B2R zero32) (B2R ex_0_7).
Proof.
  destruct C75_causality_refuted as ([F1 V1] & _ & [F2 V2] & _). assert (100 <= 2 ^ 60) as H60 by (simpl pow; lra). assert (2 ^ 22 = 4194304) as E22 by (simpl pow; lra).
  apply C75_time_error; try assumption; try reflexivity; rewrite ?V1, ?V2; simpl (B2R zero32); rewrite ?Rabs_R0, ?Rabs_pos_eq; try lra.
Qed.
