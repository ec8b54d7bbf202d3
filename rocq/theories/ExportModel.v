(** Model of the export of a signal as text: eisvogel/core/impl/SignalExport.hxx:5-19.
    The formats are those of the C++ standard library (std::fixed and std::scientific with a precision, std::showpoint: as printf with %#.*f and %#.*e),
    which round the exact value to the nearest decimal, ties to even.
    Simplifications: precisions are not negative; all NaNs are one; writing does not fail. *)
From Coq Require Import ZArith Bool List Ascii.
From Flocq Require Import Core IEEE754.BinarySingleNaN.
From Verif Require Import AntennaModel.
Import ListNotations.
Local Open Scope Z_scope.

Notation text := (list ascii).
Definition digit (d : Z) : ascii := ascii_of_N (Z.to_N (48 + d)).
(** [n] digits of [q]; all digits of [q] (at least one). *)
Fixpoint digits (n : nat) (q : Z) : text := match n with O => [] | S n => digits n (q / 10) ++ [digit (q mod 10)] end.
Fixpoint int_digits (fuel : nat) (q : Z) : text :=
  match fuel with O => [] | S fuel => if q <? 10 then [digit q] else int_digits fuel (q / 10) ++ [digit (q mod 10)] end.
Definition decimal (q : Z) : text := int_digits (S (Z.to_nat (Z.log2 q))) q.

(** [n / d] to the nearest integer, ties to even; [m * 2^e * 10^k] to the nearest integer. *)
Definition round_even (n d : Z) : Z :=
  let q := n / d in let r := n mod d in
  if 2 * r <? d then q else if d <? 2 * r then q + 1 else if Z.even q then q else q + 1.
Definition scaled_num (m e k : Z) : Z := m * 2 ^ Z.max e 0 * 10 ^ Z.max k 0.
Definition scaled_den (e k : Z) : Z := 2 ^ Z.max (- e) 0 * 10 ^ Z.max (- k) 0.
Definition scaled (m e k : Z) : Z := round_even (scaled_num m e k) (scaled_den e k).
(** 10^k <= m * 2^e; the largest such [k] from [k] on downwards. *)
Definition reaches (m e k : Z) : bool := scaled_den e (- k) <=? scaled_num m e (- k).
Fixpoint exponent10 (fuel : nat) (m e k : Z) : Z := match fuel with O => k | S fuel => if reaches m e k then k else exponent10 fuel m e (k - 1) end.

Definition minus_sign (s : bool) : text := if s then ["-"%char] else [].
(** A number with a point before the last [p] digits. *)
Definition point (p : nat) (q : Z) : text := decimal (q / 10 ^ Z.of_nat p) ++ ["."%char] ++ digits p (q mod 10 ^ Z.of_nat p).
Definition non_finite (s : bool) (name : text) : text := minus_sign s ++ name.
(** std::fixed. *)
Definition write_fixed (p : nat) (x : f32) : text :=
  match x with
  | B754_zero s => minus_sign s ++ point p 0
  | B754_finite s m e _ => minus_sign s ++ point p (scaled (Zpos m) e (Z.of_nat p))
  | B754_infinity s => non_finite s ["i"; "n"; "f"]%char
  | B754_nan => non_finite false ["n"; "a"; "n"]%char
  end.
(** std::scientific: one digit, the point, [p] digits, the exponent with at least two digits (floats need no more). *)
Definition write_exponent (k : Z) : text := ["e"%char] ++ (if k <? 0 then ["-"%char] else ["+"%char]) ++ digits 2 (Z.abs k).
Definition mantissa (p : nat) (m e : Z) : Z * Z :=
  let k := exponent10 90 m e 38 in
  let q := scaled m e (Z.of_nat p - k) in
  if q =? 10 ^ (Z.of_nat p + 1) then (10 ^ Z.of_nat p, k + 1) else (q, k).
Definition write_scientific (p : nat) (x : f32) : text :=
  match x with
  | B754_zero s => minus_sign s ++ point p 0 ++ write_exponent 0
  | B754_finite s m e _ => let '(q, k) := mantissa p (Zpos m) e in minus_sign s ++ point p q ++ write_exponent k
  | B754_infinity s => non_finite s ["i"; "n"; "f"]%char
  | B754_nan => non_finite false ["n"; "a"; "n"]%char
  end.

Definition newline : ascii := ascii_of_N 10.
(** One pass of the loop, 11-15; the loop, 10-16.  [None]: signal_values is read outside its bounds. *)
Definition write_row (time_prec value_prec : nat) (t v : f32) : text :=
  write_fixed time_prec t ++ [","; " "]%char ++ write_scientific value_prec v ++ [newline].
Fixpoint export_signal (time_prec value_prec : nat) (times values : list f32) : option text :=
  match times, values with
  | [], _ => Some []
  | t :: times, v :: values =>
      match export_signal time_prec value_prec times values with Some rest => Some (write_row time_prec value_prec t v ++ rest) | None => None end
  | _ :: _, [] => None
  end.
(** The default precisions, SignalExport.hh:7-8. *)
Definition default_time_prec : nat := 3.
Definition default_value_prec : nat := 15.
