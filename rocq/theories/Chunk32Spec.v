(** Specification of the values that the signal calculation takes from a chunk with 32-bit floats (C76). *)
From stdpp Require Import base list numbers option.
From Coq Require Import Reals ZArith.
From Flocq Require Import Core IEEE754.BinarySingleNaN.
From Verif Require Import NDArrayModel BBoxModel ChunkMetaModel AntennaModel NDArrayProps Interp32Spec.
Local Open Scope R_scope.

(** The Green's function on the grid of indices; every component is a number of size at most [M]. *)
Definition grid := Z -> Z -> Z -> nat -> f32.
Definition grid_bounded (M : R) (g : grid) : Prop := forall j1 j2 j3 c, bounded_by M (g j1 j2 j3 c).
(** Its exact interpolation at a position, with [2 * sup] weights in each direction. *)
Definition fraction (x : R) : R := x - IZR (Zfloor x).
Definition node (sup : nat) (x : R) (i : nat) : Z := (Zfloor x - (Z.of_nat sup - 1) + Z.of_nat i)%Z.
Definition interpolated (sup : nat) (weight : R -> nat -> R) (g : grid) (x1 x2 x3 : R) (c : nat) : R :=
  exact_value (2 * sup) weight (fraction x1) (fraction x2) (fraction x3) (fun i j k => B2R (g (node sup x1 i) (node sup x2 j) (node sup x3 k) c)).
(** The chunk starts at the indices [s], has the shape [n] and [ov] further elements on each side; its array holds the values of [g] there. *)
Definition chunk_at (m : chunk_meta) (s n : list nat) (ov : nat) : Prop :=
  cm_start m = N.of_nat <$> s /\ cm_shape m = N.of_nat <$> n /\ cm_end m = zip_with (fun s n => N.of_nat (s + n)) s n /\ cm_overlap m = N.of_nat ov /\ cm_off m = (fun s => wsub (N.of_nat s) (N.of_nat ov)) <$> s.
Definition holds (g : grid) (s1 s2 s3 n1 n2 n3 ov : nat) (data : ndarr f32) : Prop :=
  api_array 2 data /\ a_shape data = [n1 + 2 * ov; n2 + 2 * ov; n3 + 2 * ov]%nat /\
  forall i1 i2 i3 c, (i1 < n1 + 2 * ov)%nat -> (i2 < n2 + 2 * ov)%nat -> (i3 < n3 + 2 * ov)%nat -> (c < 2)%nat ->
    component 2 data [i1; i2; i3] c = g (Z.of_nat i1 + Z.of_nat s1 - Z.of_nat ov)%Z (Z.of_nat i2 + Z.of_nat s2 - Z.of_nat ov)%Z (Z.of_nat i3 + Z.of_nat s3 - Z.of_nat ov)%Z c.
(** The chunk is not too large for positions in 32-bit floats. *)
Definition moderate (s n ov : nat) : Prop := INR (s + n) < 2 ^ 22 /\ INR (n + 2 * ov) < 2 ^ 20.
