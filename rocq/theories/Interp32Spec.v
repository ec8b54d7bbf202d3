(** Specification of the rounding of the interpolation (C74): the exact weights and the exact interpolation of real numbers. *)
From stdpp Require Import base list numbers option.
From Coq Require Import Reals ZArith.
From Flocq Require Import Core IEEE754.BinarySingleNaN.
From Verif Require Import NDArrayModel AntennaModel AntennaSpec.
Local Open Scope R_scope.

(** The weights of the linear and of Keys' cubic interpolation (a = -1/2) between two samples, at distance [f] from the first. *)
Definition linear_weight (f : R) (i : nat) : R := match i with 0%nat => 1 - f | 1%nat => f | _ => 0 end.
Definition keys_weight (f : R) (i : nat) : R :=
  match i with
  | 0%nat => - (f * f * f) / 2 + f * f - f / 2
  | 1%nat => 3 * (f * f * f) / 2 - 5 * (f * f) / 2 + 1
  | 2%nat => - (3 * (f * f * f)) / 2 + 2 * (f * f) + f / 2
  | 3%nat => f * f * f / 2 - f * f / 2
  | _ => 0
  end.
(** A sum over i < n. *)
Fixpoint total (n : nat) (g : nat -> R) : R := match n with 0%nat => 0 | S n => total n g + g n end.
(** The interpolation of the values [v] with [n] weights in each direction. *)
Definition exact_value (n : nat) (weight : R -> nat -> R) (f1 f2 f3 : R) (v : nat -> nat -> nat -> R) : R :=
  total n (fun i => total n (fun j => total n (fun k => weight f1 i * weight f2 j * weight f3 k * v i j k))).

(** Component [c] of the element at [x] of an array of floats is a number, at most [M] in size. *)
Definition component (vd : nat) (arr : ndarr f32) (x : list nat) (c : nat) : f32 := nth c (default [] (aread vd arr x)) (B754_zero false).
Definition bounded_by (M : R) (x : f32) : Prop := is_finite x = true /\ Rabs (B2R x) <= M.
(** The position [x] is not NaN, not negative, below 2^24 and consists of [o] whole cells and the fraction [f]. *)
Definition position (x : f32) (o : nat) (f : R) : Prop := is_finite x = true /\ 0 <= f < 1 /\ B2R x = INR o + f /\ INR o < 2 ^ 24.
