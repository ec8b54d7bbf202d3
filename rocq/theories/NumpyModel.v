(** Model of the numpy export, eisvogel/core/impl/NDVecArray.hxx:405-499 (stor::Traits<NDVecArray<float, dims, vec_dims>>::
    serialize_to_numpy).  A file is a list of bytes; floats are bit patterns. *)
From stdpp Require Import base list list_numbers numbers option strings.
From Coq Require Import NArith Ascii.
From Verif Require Import NDArrayModel CodecModel.

(** The bytes of a string literal. *)
Definition ascii_bytes (s : string) : bytes := N_of_ascii <$> String.list_ascii_of_string s.
(** std::to_string of a size_t: decimal digits, no leading zeros. *)
Fixpoint dec_digits (fuel : nat) (n : N) (acc : bytes) : bytes :=
  match fuel with
  | O => acc
  | S f => if (n <? 10)%N then (48 + n)%N :: acc else dec_digits f (n / 10) ((48 + n mod 10)%N :: acc)
  end.
Definition to_string (n : N) : bytes := dec_digits (S (N.to_nat (N.log2 n))) n [].

(** shape_string, NDVecArray.hxx:471-478. *)
Definition shape_string (vd : nat) (sh : list nat) : bytes :=
  ascii_bytes "(" ++ mjoin ((fun n => to_string (N.of_nat n) ++ ascii_bytes ", ") <$> sh) ++ to_string (N.of_nat vd) ++ ascii_bytes ")".
(** The header before padding, 439-440; dtype, 416. *)
Definition npy_header (vd : nat) (sh : list nat) : bytes :=
  ascii_bytes "{'descr': '" ++ ascii_bytes ">f4" ++ ascii_bytes "', 'fortran_order': False, 'shape': " ++ shape_string vd sh ++ ascii_bytes ", }".
(** init, 429 *)
Definition npy_magic : bytes := 147%N :: ascii_bytes "NUMPY".
(** Padding, 442-449. *)
Definition npy_padded (h : bytes) : bytes :=
  let before := (length npy_magic + 1 + 1 + 2 + length h)%nat in
  let padding := ((before / 64 + 1) * 64 - before)%nat in
  h ++ replicate (padding - 1) 32%N ++ [10%N].
(** serialize_short_little_endian, 464-469; the conversion to unsigned short is modulo 2^16. *)
Definition short_le (v : N) : bytes := to_le 2 (v mod 2 ^ 16).
(** serialize_to_numpy, 424-458, and serialize_data, 480-492 (the same block-wise loop as Traits<std::vector<float>>).
    [None]: the array does not own its data (assert, 426). *)
Definition serialize_to_numpy (vd : nat) (a : ndarr N) : option bytes :=
  if a_owns a then
    let h := npy_padded (npy_header vd (a_shape a)) in
    Some (npy_magic ++ [1%N; 0%N] ++ short_le (N.of_nat (length h)) ++ h ++
          float_blocks_enc (length (a_data a)) (100 * 100) (a_data a))
  else None.
