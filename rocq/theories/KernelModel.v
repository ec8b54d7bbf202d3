(** Model of the quadrature weights (eisvogel/core/impl/Quadrature.hh) and of the interpolation kernels
    (Interpolation.hxx:3-61).  Floating point numbers are modelled by real numbers: rounding is not modelled. *)
From stdpp Require Import base list numbers option.
From Coq Require Import Reals.

(** Writing through an iterator; [None] if it does not point into the range. *)
Definition put (w : list R) (i : nat) (x : R) : option (list R) :=
  if (i <? length w)%nat then Some (<[i := x]> w) else None.

(** TrapezoidalRule::fill_weights, Quadrature.hh:8-28; [size] is weights_end - weights_begin.  [None]: the assert in line 12
    fails or a weight outside the buffer is written (the first or last weight of an empty range). *)
Definition fill_weights (ind_a ind_b num_samples size : nat) : option (list R) :=
  if (size =? ind_b - ind_a)%nat then
    let w := replicate size 1%R in
    w1 ← (if (ind_a =? 0)%nat then put w 0 (1 / 2)%R else Some w);
    (if (ind_b =? num_samples)%nat then (if (size =? 0)%nat then None else put w1 (size - 1) (1 / 2)%R) else Some w1)
  else None.

(** The assert on the fractional part, Interpolation.hxx:7 and 19. *)
Definition frac_ok (f : R) : bool := if Rle_dec 0 f then (if Rlt_dec f 1 then true else false) else false.

(** A kernel: its support and its weights. *)
Record kernel := Kernel { k_support : nat; k_kern : R -> option (list R) }.

Local Open Scope R_scope.
(** Linear::kern, Interpolation.hxx:5-11, Interpolation.hh:14-17. *)
Definition linear : kernel := Kernel 1 (fun f => if frac_ok f then Some [1 - f; f] else None).

(** Keys::kern, Interpolation.hxx:13-60, Interpolation.hh:9-12. *)
Definition keys : kernel := Kernel 2 (fun f =>
  if frac_ok f then
    let p1_1 := - (1 / 2) * f in
    let p1_2 := f - 1 in
    let p1_3 := p1_1 * p1_2 in
    let o0 := p1_3 * p1_2 in
    let c2_1 := (1 - sqrt 7) / 3 in
    let p2_1 := f - c2_1 in
    let c2_2 := (1 + sqrt 7) / 3 in
    let p2_2 := f - c2_2 in
    let p2_3 := f - 1 in
    let p2_4 := p2_2 * p2_3 in
    let c2_5 := 3 / 2 in
    let p2_5 := c2_5 * p2_1 in
    let o1 := p2_5 * p2_4 in
    let c3_1 := 1 / 3 * (2 - sqrt 7) in
    let p3_1 := f - c3_1 in
    let c3_2 := 1 / 3 * (2 + sqrt 7) in
    let p3_2 := f - c3_2 in
    let p3_3 := p3_1 * p3_2 in
    let c3_4 := - 3 / 2 in
    let p3_4 := f * c3_4 in
    let o2 := p3_3 * p3_4 in
    let p4_1 := f - 1 in
    let p4_2 := f * f in
    let c4_3 := 1 / 2 in
    let p4_3 := p4_1 * c4_3 in
    let o3 := p4_3 * p4_2 in
    Some [o0; o1; o2; o3]
  else None).
