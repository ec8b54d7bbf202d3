(** Model of eisvogel/core/impl/NDVecArrayOperations.hxx (Downsampling) and of the padding arithmetic of
    calculate_mpi_chunk, eisvogel/meep/impl/MEEPCylindricalGreensFunctionCalculator.hxx:536-561.
    Index vectors are size_t (wrap-around arithmetic of BBoxModel); array shapes are lists of nat as in NDArrayModel.
    A downsampling factor 0 (integer division by zero, undefined) is excluded in the theorems. *)
From stdpp Require Import base list list_numbers numbers option.
From Coq Require Import NArith.
From Verif Require Import LoopsModel NDArrayModel BBoxModel.

(** Component-wise size_t operators of Vector, Vector.hh:126-152, and with a scalar, 180-206. *)
Definition vwadd : list N -> list N -> list N := zip_with wadd.
Definition vwsub : list N -> list N -> list N := zip_with wsub.
Definition vwmul : list N -> list N -> list N := zip_with wmul.
Definition vwdiv : list N -> list N -> list N := zip_with N.div.
Definition vto_nat (v : list N) : list nat := N.to_nat <$> v.
Definition vof_nat (v : list nat) : list N := N.of_nat <$> v.

(** get_first_downsampled_ind_in_range, NDVecArrayOperations.hxx:5-8. *)
Definition ds_first (start ds : list N) : list N := vwdiv ((fun x => wsub x 1) <$> vwadd start ds) ds.
(** get_last_downsampled_ind_in_range, 10-13. *)
Definition ds_last (e ds : list N) : list N := (fun x => wadd x 1) <$> vwdiv ((fun x => wsub x 1) <$> e) ds.
(** get_shape, 15-18. *)
Definition ds_shape (s e : list N) : list N := vwsub (zip_with N.max e s) s.
(** get_downsampled_shape, 23-28. *)
Definition get_downsampled_shape (start shape ds : list N) : list N :=
  ds_shape (ds_first start ds) (ds_last (vwadd start shape) ds).

(** downsample, 30-60; returns the output array and downsampled_start_ind.  [None]: a failed assert
    (55-56) or a view as output buffer (resize asserts ownership). *)
Definition downsample {A} (vd : nat) (junk : A) (src : ndarr A) (start ds : list N) (dst : ndarr A)
  : option (ndarr A * list N) :=
  let e := vwadd start (vof_nat (a_shape src)) in
  let d_start := ds_first start ds in
  let d_end := ds_last e ds in
  dst1 ← aresize vd junk (vto_nat (ds_shape d_start d_end)) dst;
  ks ← elem_loop (loop_fuel (vto_nat d_end)) (vto_nat d_start) (vto_nat d_end);
  dst2 ← foldM (fun (a : ndarr A) k =>
           let dest := vto_nat (vwsub (vof_nat k) d_start) in
           let srci := vto_nat (vwsub (vwmul (vof_nat k) ds) start) in
           if has_index (a_shape a) dest && has_index (a_shape src) srci
           then v ← aread vd src srci; awrite vd a dest v else None) dst1 ks;
  Some (dst2, d_start).

(** The padding that fits around the storage domain, MEEPCylindricalGreensFunctionCalculator.hxx:538-539
    (VectorUtils::min with a scalar of the same type), and the padded domain, 553-554.  One axis;
    the C++ code does the same on every component. *)
Definition padding_pre (start ds req : N) : N := N.min (start / ds) req.
Definition padding_post (calc e ds req : N) : N := N.min (wsub calc e / ds) req.
Definition padded_start (start pre ds : N) : N := wsub start (wmul pre ds).
Definition padded_shape (shape pre post ds : N) : N := wadd shape (wmul (wadd pre post) ds).
