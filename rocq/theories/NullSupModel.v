(** Model of eisvogel/core/impl/NDVecArraySerialization.hh.  The scalars are
    float bit patterns ([N] below 2^32); [vd] is vec_dims.  The functions
    take/return the array elements in loop order (row-major: C02). *)
From stdpp Require Import base list list_numbers numbers option.
From Verif Require Import CodecModel.
From Coq Require Import NArith.

(** [x == 0.0f] for a float given by its bits: +0 or -0. *)
Definition is_zero_bits (b : N) : bool := (b =? 0)%N || (b =? 2 ^ 31)%N.
(** IsNullVector, VectorView.hh:50-63; IsNull, NDVecArray.hxx:372-375. *)
Definition is_null (v : list N) : bool := forallb is_zero_bits v.

(** dense::to_buffer, NDVecArraySerialization.hh:29-43 with postprocessor htonl (9-14). *)
Definition dense_to_buffer (els : list (list N)) : list N := mjoin ((fun v => htonl <$> v) <$> els).

(** dense::from_buffer, NDVecArraySerialization.hh:49-67 with preprocessor ntohl (18-23):
    [n] elements; returns them and the unread rest of the buffer.
    Reading beyond the buffer is undefined behaviour ([None]). *)
Fixpoint dense_from_buffer (vd n : nat) (buf : list N) : option (list (list N) * list N) :=
  match n with
  | O => Some ([], buf)
  | S n' => if (vd <=? length buf)%nat then
              '(l, r) ← dense_from_buffer vd n' (drop vd buf);
              Some ((ntohl <$> take vd buf) :: l, r)
            else None
  end.

(** calculate_required_buflen, NDVecArraySerialization.hh:72-86, with IntDivCeil (MathUtils.hh:12-15). *)
Definition int_div_ceil (x y : nat) : nat := ((x + y - 1) / y)%nat.
Definition nullsup_buflen (number_elements vd : nat) : nat :=
  (number_elements * vd + int_div_ceil number_elements 2)%nat.

(** One call of null_suppressor, NDVecArraySerialization.hh:117-150; the state is
    (num_nulls : uint32_t, buffer contents written so far). *)
Definition suppress_step (vd : nat) (st : N * list N) (v : list N) : N * list N :=
  let '(num_nulls, out) := st in
  if is_null v then
    (((num_nulls + 1) mod 2 ^ 32)%N,
     if (num_nulls =? 0)%N then out ++ replicate vd (htonl 0) else out)
  else
    (0%N, (if (0 <? num_nulls)%N then out ++ [htonl num_nulls] else out) ++ (htonl <$> v)).
(** suppress_null, NDVecArraySerialization.hh:112-162: everything written to the buffer. *)
Definition suppress_null (vd : nat) (els : list (list N)) : list N :=
  let '(num_nulls, out) := foldl (suppress_step vd) (0%N, []) els in
  if (0 <? num_nulls)%N then out ++ [htonl num_nulls] else out.

(** desuppress_null, NDVecArraySerialization.hh:167-201, for [n] elements.
    Line 193: preprocessor(..) - 1 in uint32_t. *)
Fixpoint desuppress (vd n : nat) (num_nulls : N) (buf : list N) : option (list (list N) * list N) :=
  match n with
  | O => Some ([], buf)
  | S n' =>
      if (0 <? num_nulls)%N then
        '(l, r) ← desuppress vd n' (num_nulls - 1)%N buf; Some (replicate vd 0%N :: l, r)
      else if (vd <=? length buf)%nat then
        let elem := ntohl <$> take vd buf in
        let buf' := drop vd buf in
        if is_null elem then
          match buf' with
          | [] => None
          | c :: buf'' =>
              '(l, r) ← desuppress vd n' ((ntohl c + (2 ^ 32 - 1)) mod 2 ^ 32)%N buf''; Some (elem :: l, r)
          end
        else '(l, r) ← desuppress vd n' 0%N buf'; Some (elem :: l, r)
      else None
  end.
Definition desuppress_null (vd n : nat) (buf : list N) : option (list (list N) * list N) :=
  desuppress vd n 0 buf.
