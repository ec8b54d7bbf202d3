(** Model of CylindricalGreensFunction::fill_array, eisvogel/core/impl/GreensFunction.hxx:104-203 (sampling the Green's function on a regular grid).
    Reals instead of floats, as in SignalModel; [None]: an assert fails, something outside of a buffer is accessed, a number is cast to an integer type
    that cannot hold it, or a number is divided by zero. *)
From stdpp Require Import base list list_numbers numbers option.
From Coq Require Import Reals ZArith.
From Verif Require Import LoopsModel NDArrayModel KernelModel InterpModel BBoxModel ChunkMetaModel SignalModel.
Local Open Scope R_scope.

(** ceil_nonneg, floor_nonneg, Vector.hxx:132-156, for one component. *)
Definition ceil_nonneg (x : R) : option nat := if Rle_dec 0 x then Some (Z.to_nat (ceiling x)) else None.
Definition floor_nonneg (x : R) : option nat := if Rle_dec 0 x then Some (Z.to_nat (Int_part x)) else None.

(** is_in_range, 57-66, for one axis. *)
Definition axis_in_range (x a b : R) : bool := if Rlt_dec x a then false else if Rlt_dec b x then false else true.

(** The output indices that a chunk determines along one axis, 146-151: [f0] is start_f_ind, [st] stepsize_f_ind, [n] num_samples, [cs] and [ce] the
    start and the end of the chunk. *)
Definition out_range (f0 st : R) (n : nat) (cs ce : N) : option (nat * nat) :=
  a ← ceil_nonneg (Rmax ((INR (N.to_nat cs) - f0) / st) 0);
  b ← floor_nonneg (Rmin ((INR (N.to_nat ce) - f0) / st + 1) (INR n));
  Some (a, b).

(** The interpolation buffer, an array of one dimension. *)
Definition column (buf : list (list R)) : ndarr R := NDArr [length buf] (compute_strides 2 [length buf]) 0 (concat buf) true.
(** fill_from for a column, NDVecArray.hxx:165-191, also for an empty one: then output_end is output_start minus one along the last axis, which has to
    be an index. *)
Definition fill_column (this other : ndarr R) (os : list nat) : option (ndarr R) :=
  if (vlast (a_shape other) =? 0)%nat then
    if a_owns this && has_index (a_shape this) os && (1 <=? vlast os)%nat then Some this else None
  else afill_col 2 this other os.

(** The body of the loop over the chunks, 134-202.  num_inner_samples is a size_t: if it were negative, a buffer of nearly 2^64 elements would be
    allocated.  RetrieveChunk (140) is done once per chunk, here also for every column (the function g_data gives the same). *)
Definition fill_chunk (G : green) (K : kernel) (f0 st : R * R * R) (n : nat * nat * nat) (arr : ndarr R) (m : chunk_meta) : option (ndarr R) :=
  if (cm_type m =? all_null)%N then Some arr else
  _ ← g_data G m;
  match cm_start m, cm_end m with
  | [s1; s2; s3], [e1; e2; e3] =>
      '(a1, b1) ← out_range f0.1.1 st.1.1 n.1.1 s1 e1;
      '(a2, b2) ← out_range f0.1.2 st.1.2 n.1.2 s2 e2;
      '(a3, b3) ← out_range f0.2 st.2 n.2 s3 e3;
      if (b3 <? a3)%nat then None else
      outer ← elem_loop (loop_fuel [b1; b2]) [a1; a2] [b1; b2];
      foldM (fun arr o => match o with
        | [o1; o2] =>
            buf ← chunk_samples G K m (INR o1 * st.1.1 + f0.1.1) (INR o2 * st.1.2 + f0.1.2) (INR a3 * st.2 + f0.2) st.2 (b3 - a3);
            fill_column arr (column buf) [o1; o2; a3]
        | _ => None
        end) arr outer
  | _, _ => None
  end.

(** fill_array, 104-203.  [m_end] is m_meta.end_pos_rzt; [search] is m_index.GetChunks; [junk] is what the storage holds that resize adds. *)
Definition fill_array (G : green) (m_end : R * R * R) (search : list N -> list N -> list chunk_meta) (K : kernel) (junk : R)
    (p q : R * R * R) (n : nat * nat * nat) (arr : ndarr R) : option (ndarr R) :=
  let in_range (x : R * R * R) :=
    axis_in_range x.1.1 (g_start G).1.1 m_end.1.1 && axis_in_range x.1.2 (g_start G).1.2 m_end.1.2 && axis_in_range x.2 (g_start G).2 m_end.2 in
  if in_range p && in_range q then
    arr ← aresize 2 junk [n.1.1; n.1.2; n.2] arr;
    let arr := NDArr (a_shape arr) (a_strides arr) (a_off arr) (replicate (length (a_data arr)) 0) (a_owns arr) in
    let '(dr, dz, dt) := g_interval G in
    if Req_EM_T dr 0 then None else if Req_EM_T dz 0 then None else if Req_EM_T dt 0 then None else
    let f x := ((x.1.1 - (g_start G).1.1) / dr, (x.1.2 - (g_start G).1.2) / dz, (x.2 - (g_start G).2) / dt) in
    let f0 := f p in let f1 := f q in
    if (n.1.1 =? 1)%nat || (n.1.2 =? 1)%nat || (n.2 =? 1)%nat then None else
    let st := ((f1.1.1 - f0.1.1) / (INR n.1.1 - 1), (f1.1.2 - f0.1.2) / (INR n.1.2 - 1), (f1.2 - f0.2) / (INR n.2 - 1)) in
    s1 ← to_size f0.1.1; s2 ← to_size f0.1.2; s3 ← to_size f0.2;
    e1 ← to_size f1.1.1; e2 ← to_size f1.1.2; e3 ← to_size f1.2;
    if Req_EM_T st.1.1 0 then None else if Req_EM_T st.1.2 0 then None else if Req_EM_T st.2 0 then None else
    foldM (fill_chunk G K f0 st n) arr (search [N.of_nat s1; N.of_nat s2; N.of_nat s3] [N.of_nat e1; N.of_nat e2; N.of_nat e3])
  else None.
