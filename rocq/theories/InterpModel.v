(** Model of Interpolation::interpolate, eisvogel/core/impl/Interpolation.hxx:63-184 (instantiated for dims = 3, the only
    one the code accepts).  Reals instead of floats. *)
From stdpp Require Import base list numbers option.
From Coq Require Import Reals ZArith.
From Verif Require Import NDArrayModel KernelModel.

(** std::modf and the cast of the integer part to size_t (98-102, 151-153).  [None] for negative arguments: the fractional
    part is then negative (the kernel's assert fails) or the cast of a negative number is undefined. *)
Definition modf (x : R) : option (nat * R) :=
  if Rle_dec 0 x then Some (Z.to_nat (Int_part x), frac_part x) else None.

(** The loop [for(i = o - ind_offset; i < o - ind_offset + ksize; i++)] in size_t, 134-135: if [o < ind_offset] the start
    wraps around to a value near 2^64 while the end wraps to a small one, so that nothing is visited. *)
Definition stencil (support o : nat) : list nat :=
  if (support - 1 <=? o)%nat then seq (o - (support - 1)) (2 * support) else [].

(** Reading one scalar through a pointer; [p] may be negative or beyond the end (undefined). *)
Definition peek (data : list R) (p : Z) : option R := if (0 <=? p)%Z then data !! Z.to_nat p else None.

(** interpolate_1d, 65-80. *)
Definition interpolate_1d (vd : nat) (kern : list R) (data : list R) (p : Z) : option (list R) :=
  foldM (fun accum i =>
    w ← kern !! i;
    v ← mapM (fun j => peek data (p + Z.of_nat (vd * i + j))) (seq 0 vd);
    Some (zip_with Rplus accum ((fun x => w * x)%R <$> v))) (replicate vd 0%R) (seq 0 (length kern)).

(** interpolate, 82-183.  [ret] is the output buffer after retval.resize(num_samples): one vector per sample, to which the
    result is added. *)
Definition interpolate (K : kernel) (vd : nat) (arr : ndarr R) (ret : list (list R)) (outer1 outer2 : R)
    (inner_start inner_delta : R) (num_samples : nat) : option (list (list R)) :=
  let off := (k_support K - 1)%nat in
  '(o1, f1) ← modf outer1;
  '(o2, f2) ← modf outer2;
  k1 ← k_kern K f1;
  k2 ← k_kern K f2;
  foldM (fun ret i1 =>
    foldM (fun ret i2 =>
      let column_start := Z.of_nat (flat_ind (a_strides arr) (a_off arr) [i1; i2; 0%nat]) in
      w1 ← k1 !! (i1 - (o1 - off))%nat;
      w2 ← k2 !! (i2 - (o2 - off))%nat;
      foldM (fun (ret : list (list R)) s =>
        '(ii, fi) ← modf (inner_start + INR s * inner_delta)%R;
        ik ← k_kern K fi;
        v ← interpolate_1d vd ik (a_data arr) (column_start + Z.of_nat vd * (Z.of_nat ii - Z.of_nat off))%Z;
        old ← ret !! s;
        Some (<[s := zip_with Rplus old ((fun x => x * (w1 * w2))%R <$> v)]> ret)) ret (seq 0 num_samples))
      ret (stencil (k_support K) o2))
    ret (stencil (k_support K) o1).
