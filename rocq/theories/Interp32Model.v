(** Model of the interpolation with 32-bit floats: eisvogel/core/impl/Interpolation.hxx (KernelModel and InterpModel have the same code over the
    reals).  scalar_t is float; a literal such as 1.0 is a double, and an operation with it is done in doubles and then converted.
    Every operation is rounded on its own, to nearest. *)
From stdpp Require Import base list numbers option.
From Coq Require Import ZArith Bool.
From Flocq Require Import Core IEEE754.BinarySingleNaN.
From Verif Require Import NDArrayModel AntennaModel DiscreteModel InterpModel.

(** Literals: the double m 2^e. *)
Definition lit (m e : Z) : f64 := binary_normalize 53 1024 _ _ mode_NE m e false.
(** std::sqrt(7.0). *)
Definition sqrt7 : f64 := Bsqrt mode_NE (lit 7 0).
(** The constants of lines 32, 34, 38, 44, 46, 49 and 57. *)
Definition c2_1 : f32 := to_float (Bdiv mode_NE (Bminus mode_NE (lit 1 0) sqrt7) (lit 3 0)).
Definition c2_2 : f32 := to_float (Bdiv mode_NE (Bplus mode_NE (lit 1 0) sqrt7) (lit 3 0)).
Definition c2_5 : f32 := to_float (Bdiv mode_NE (lit 3 0) (lit 2 0)).
Definition c3_1 : f32 := to_float (Bmult mode_NE (Bdiv mode_NE (lit 1 0) (lit 3 0)) (Bminus mode_NE (lit 2 0) sqrt7)).
Definition c3_2 : f32 := to_float (Bmult mode_NE (Bdiv mode_NE (lit 1 0) (lit 3 0)) (Bplus mode_NE (lit 2 0) sqrt7)).
Definition c3_4 : f32 := to_float (Bdiv mode_NE (lit (-3) 0) (lit 2 0)).
Definition c4_3 : f32 := to_float (Bdiv mode_NE (lit 1 0) (lit 2 0)).

(** The assert on the fractional part, 7 and 19. *)
Definition frac_ok32 (f : f32) : bool := Bleb zero32 f && Bltb f one32.
(** A kernel: its support and its weights. *)
Record kernel32 := Kernel32 { k32_support : nat; k32_kern : f32 -> option (list f32) }.
(** Linear::kern, 5-11. *)
Definition linear32 : kernel32 := Kernel32 1 (fun f => if frac_ok32 f then Some [Bminus mode_NE one32 f; f] else None).
(** Keys::kern, 13-60. *)
Definition keys32 : kernel32 := Kernel32 2 (fun f =>
  if frac_ok32 f then
    let p1_1 := to_float (Bmult mode_NE (lit (-1) (-1)) (to_double f)) in
    let p1_2 := to_float (Bminus mode_NE (to_double f) (lit 1 0)) in
    let p1_3 := Bmult mode_NE p1_1 p1_2 in
    let o0 := Bmult mode_NE p1_3 p1_2 in
    let p2_1 := Bminus mode_NE f c2_1 in
    let p2_2 := Bminus mode_NE f c2_2 in
    let p2_3 := to_float (Bminus mode_NE (to_double f) (lit 1 0)) in
    let p2_4 := Bmult mode_NE p2_2 p2_3 in
    let p2_5 := Bmult mode_NE c2_5 p2_1 in
    let o1 := Bmult mode_NE p2_5 p2_4 in
    let p3_1 := Bminus mode_NE f c3_1 in
    let p3_2 := Bminus mode_NE f c3_2 in
    let p3_3 := Bmult mode_NE p3_1 p3_2 in
    let p3_4 := Bmult mode_NE f c3_4 in
    let o2 := Bmult mode_NE p3_3 p3_4 in
    let p4_1 := to_float (Bminus mode_NE (to_double f) (lit 1 0)) in
    let p4_2 := Bmult mode_NE f f in
    let p4_3 := Bmult mode_NE p4_1 c4_3 in
    let o3 := Bmult mode_NE p4_3 p4_2 in
    Some [o0; o1; o2; o3]
  else None).

(** std::modf and the cast of the integer part to size_t, 97-102 and 151-153: the integer part and the remainder (exact).  [None] for a
    number below 0 (its fractional part fails the kernel's assert, or the cast is undefined), NaN, infinity and numbers that do not fit. *)
Definition modf32 (x : f32) : option (nat * f32) :=
  if Bleb zero32 x then k ← to_size32 x; Some (N.to_nat k, Bminus mode_NE x (of_size k)) else None.

(** Reading one scalar through a pointer. *)
Definition peek32 (data : list f32) (p : Z) : option f32 := if (0 <=? p)%Z then data !! Z.to_nat p else None.
(** interpolate_1d, 65-80. *)
Definition interpolate_1d32 (vd : nat) (kern : list f32) (data : list f32) (p : Z) : option (list f32) :=
  foldM (fun accum i =>
    w ← kern !! i;
    v ← mapM (fun j => peek32 data (p + Z.of_nat (vd * i + j))) (seq 0 vd);
    Some (zip_with (Bplus mode_NE) accum ((fun x => Bmult mode_NE w x) <$> v))) (replicate vd zero32) (seq 0 (length kern)).
(** The position of a sample, 148. *)
Definition inner_ind32 (start delta : f32) (s : nat) : f32 := Bplus mode_NE start (Bmult mode_NE (of_size (N.of_nat s)) delta).

(** interpolate, 82-183, as in InterpModel. *)
Definition interpolate32 (K : kernel32) (vd : nat) (arr : ndarr f32) (ret : list (list f32)) (outer1 outer2 : f32)
    (inner_start inner_delta : f32) (num_samples : nat) : option (list (list f32)) :=
  let off := (k32_support K - 1)%nat in
  '(o1, f1) ← modf32 outer1;
  '(o2, f2) ← modf32 outer2;
  k1 ← k32_kern K f1;
  k2 ← k32_kern K f2;
  foldM (fun ret i1 =>
    foldM (fun ret i2 =>
      let column_start := Z.of_nat (flat_ind (a_strides arr) (a_off arr) [i1; i2; 0%nat]) in
      w1 ← k1 !! (i1 - (o1 - off))%nat;
      w2 ← k2 !! (i2 - (o2 - off))%nat;
      foldM (fun (ret : list (list f32)) s =>
        '(ii, fi) ← modf32 (inner_ind32 inner_start inner_delta s);
        ik ← k32_kern K fi;
        v ← interpolate_1d32 vd ik (a_data arr) (column_start + Z.of_nat vd * (Z.of_nat ii - Z.of_nat off))%Z;
        old ← ret !! s;
        Some (<[s := zip_with (Bplus mode_NE) old ((fun x => Bmult mode_NE x (Bmult mode_NE w1 w2)) <$> v)]> ret)) ret (seq 0 num_samples))
      ret (stencil (k32_support K) o2))
    ret (stencil (k32_support K) o1).
