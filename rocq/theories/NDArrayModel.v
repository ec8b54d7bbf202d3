(** Model of eisvogel/core/impl/NDVecArray.hh and NDVecArray.hxx.
    [A] is the scalar type, [vd] the number of components per element
    (template parameter vec_dims).  [None] is an outcome distinct from every
    normal result: a failed assert or an out-of-bounds access (undefined behaviour
    if asserts are disabled). *)
From stdpp Require Import base list numbers option.
From Verif Require Import LoopsModel.

(** Data members, NDVecArray.hh:268-276 (m_number_elements and m_volume are
    always recomputed from m_shape and are modelled by [number_elements]). *)
Record ndarr (A : Type) := NDArr {
  a_shape : list nat;
  a_strides : list nat;
  a_off : nat;
  a_data : list A;       (* *m_data, shared with the parent array for a view *)
  a_owns : bool          (* m_owns_data *)
}.
Arguments NDArr {A}. Arguments a_shape {A}. Arguments a_strides {A}.
Arguments a_off {A}. Arguments a_data {A}. Arguments a_owns {A}.

(** The loop of ComputeStrides for dims > 2, NDVecArray.hh:233-239: innermost
    axis first; returns (strides, stride_accum). *)
Fixpoint strides_loop (sh : list nat) : list nat * nat :=
  match sh with
  | [] => ([], 1%nat)
  | s :: sh' => let '(st, acc) := strides_loop sh' in (acc :: st, (acc * s)%nat)
  end.

(** ComputeStrides, NDVecArray.hh:220-244 (three overloads). *)
Definition compute_strides (vd : nat) (sh : list nat) : list nat :=
  match sh with
  | [_] => [vd]
  | [_; s1] => [(s1 * vd)%nat; vd]
  | _ => (fun s => s * vd)%nat <$> (strides_loop sh).1
  end.

(** ComputeFlatInd, NDVecArray.hh:203-218: inner_product with initial value m_offset. *)
Definition flat_ind (strides : list nat) (off : nat) (ind : list nat) : nat :=
  fold_left Nat.add (zip_with Nat.mul ind strides) off.

(** ComputeNumberElements / ComputeVolume, NDVecArray.hh:251-257. *)
Definition number_elements (sh : list nat) : nat := fold_left Nat.mul sh 1%nat.
Definition compute_volume (vd : nat) (sh : list nat) : nat := (number_elements sh * vd)%nat.

(** has_index / index_within_bounds, NDVecArray.hxx:193-206, NDVecArray.hh:121-128. *)
Fixpoint has_index (sh ind : list nat) : bool :=
  match sh, ind with
  | [], [] => true
  | s :: sh', i :: ind' => (i <? s)%nat && has_index sh' ind'
  | _, _ => false
  end.

(** A block of [n] scalars at position [p]; [None] if not inside the storage. *)
Definition block {A} (data : list A) (p n : nat) : option (list A) :=
  if (p + n <=? length data)%nat then Some (take n (drop p data)) else None.
(** Overwrite a block. *)
Definition set_block {A} (data : list A) (p : nat) (v : list A) : option (list A) :=
  if (p + length v <=? length data)%nat then Some (list_inserts p v data) else None.

(** operator[] (read), NDVecArray.hh:131-139: assert, then a view of vd scalars. *)
Definition aread {A} (vd : nat) (a : ndarr A) (ind : list nat) : option (list A) :=
  if has_index (a_shape a) ind
  then block (a_data a) (flat_ind (a_strides a) (a_off a) ind) vd else None.

(** operator[] followed by assignment through the VectorView (VectorView.hh operator=). *)
Definition awrite {A} (vd : nat) (a : ndarr A) (ind : list nat) (v : list A) : option (ndarr A) :=
  if has_index (a_shape a) ind && (length v =? vd)%nat then
    d ← set_block (a_data a) (flat_ind (a_strides a) (a_off a) ind) v;
    Some (NDArr (a_shape a) (a_strides a) (a_off a) d (a_owns a))
  else None.

(** Constructor NDVecArray(shape), NDVecArray.hxx:7-14; the storage is
    uninitialised, [junk] stands for whatever it holds. *)
Definition anew {A} (vd : nat) (junk : A) (sh : list nat) : ndarr A :=
  NDArr sh (compute_strides vd sh) 0 (replicate (compute_volume vd sh) junk) true.

(** std::vector::resize on the storage: truncate or extend with [junk]
    (no_init_alloc, MemoryUtils.hh). *)
Definition vresize {A} (junk : A) (n : nat) (l : list A) : list A :=
  take n l ++ replicate (n - length l) junk.

(** resize, NDVecArray.hxx:43-56. *)
Definition aresize {A} (vd : nat) (junk : A) (sh : list nat) (a : ndarr A) : option (ndarr A) :=
  if a_owns a then
    Some (NDArr sh (compute_strides vd sh) 0 (vresize junk (compute_volume vd sh) (a_data a)) true)
  else None.

(** View, NDVecArray.hh:177-181: shares the storage, keeps the strides. *)
Definition aview {A} (a : ndarr A) (s e : list nat) : ndarr A :=
  NDArr (zip_with Nat.sub e s) (a_strides a) (flat_ind (a_strides a) (a_off a) s) (a_data a) false.

(** std::copy_n from [src] at [sp] to [dst] at [dp]. *)
Definition copy_n {A} (src : list A) (sp n : nat) (dst : list A) (dp : nat) : option (list A) :=
  v ← block src sp n; set_block dst dp v.

(** A sequence of workers acting on a state. *)
Fixpoint foldM {S B} (f : S -> B -> option S) (s : S) (l : list B) : option S :=
  match l with
  | [] => Some s
  | b :: l' => s' ← f s b; foldM f s' l'
  end.

(** chunk_size(1u); chunk_size[dims-1] = n. *)
Definition row_chunk (dims n : nat) : list nat := replicate (dims - 1) 1%nat ++ [n].

(** Last component of an index vector (index dims - 1). *)
Definition vlast (v : list nat) : nat := List.last v 0%nat.

(** Copy assignment, NDVecArray.hxx:75-98.  Note line 86: the offset of
    *this* is used for both [other.m_data] (line 87) and [m_data] (line 88). *)
Definition acopy_assign {A} (vd : nat) (junk : A) (this other : ndarr A) : option (ndarr A) :=
  t ← aresize vd junk (a_shape other) this;
  let n := vlast (a_shape t) in
  chunks ← array_chunk_loop (loop_fuel (a_shape t)) (a_shape t) (row_chunk (length (a_shape t)) n);
  d ← foldM (fun d c =>
         let offset := flat_ind (a_strides t) (a_off t) c.1 in
         copy_n (a_data other) offset (n * vd) d offset) (a_data t) chunks;
  Some (NDArr (a_shape t) (a_strides t) (a_off t) d true).

(** Copy constructor, NDVecArray.hxx:31-40. *)
Definition acopy {A} (vd : nat) (junk : A) (other : ndarr A) : option (ndarr A) :=
  acopy_assign vd junk
    (NDArr (a_shape other) (a_strides other) (a_off other)
           (replicate (compute_volume vd (a_shape other)) junk) true) other.

(** Subtracting 1 from every component in size_t: 0 becomes a huge value, which
    [has_index] then rejects; modelled by failing right away. *)
Definition has_end (sh e : list nat) : bool :=
  forallb (fun x => 1 <=? x)%nat e && has_index sh (Nat.pred <$> e).

(** fill, NDVecArray.hxx:110-128. *)
Definition afill {A} (vd : nat) (a : ndarr A) (s e : list nat) (v : A) : option (ndarr A) :=
  if has_index (a_shape a) s && has_end (a_shape a) e then
    let n := (vlast e - vlast s)%nat in
    chunks ← chunk_loop (loop_fuel e) s e (row_chunk (length (a_shape a)) n);
    d ← foldM (fun d c => set_block d (flat_ind (a_strides a) (a_off a) c.1) (replicate (n * vd) v))
          (a_data a) chunks;
    Some (NDArr (a_shape a) (a_strides a) (a_off a) d (a_owns a))
  else None.

(** operator=(const T&), NDVecArray.hxx:100-108. *)
Definition aassign_val {A} (vd : nat) (a : ndarr A) (v : A) : option (ndarr A) :=
  afill vd a (replicate (length (a_shape a)) 0%nat) (a_shape a) v.

(** fill_from, NDVecArray.hxx:130-154. *)
Definition afill_from {A} (vd : nat) (this other : ndarr A) (is ie os : list nat) : option (ndarr A) :=
  if has_index (a_shape other) is && has_end (a_shape other) ie
     && has_index (a_shape this) os
     && has_end (a_shape this) (zip_with Nat.add os (zip_with Nat.sub ie is)) then
    let n := (vlast ie - vlast is)%nat in
    chunks ← chunk_loop (loop_fuel ie) is ie (row_chunk (length (a_shape this)) n);
    d ← foldM (fun d c =>
           copy_n (a_data other) (flat_ind (a_strides other) (a_off other) c.1) (n * vd)
             d (flat_ind (a_strides this) (a_off this) (zip_with Nat.add os (zip_with Nat.sub c.1 is))))
          (a_data this) chunks;
    Some (NDArr (a_shape this) (a_strides this) (a_off this) d (a_owns this))
  else None.

(** fill_from for a 1-d column along the innermost axis, NDVecArray.hxx:165-191. *)
Definition afill_col {A} (vd : nat) (this other : ndarr A) (os : list nat) : option (ndarr A) :=
  let n := vlast (a_shape other) in
  if a_owns this && a_owns other && (1 <=? n)%nat && has_index (a_shape this) os
     && has_index (a_shape this) (removelast os ++ [(vlast os + n - 1)%nat]) then
    d ← copy_n (a_data other) 0 (vd * n) (a_data this) (flat_ind (a_strides this) (a_off this) os);
    Some (NDArr (a_shape this) (a_strides this) (a_off this) d (a_owns this))
  else None.

(** ShapeAllowsConcatenation, NDVecArray.hxx:356-370. *)
Definition shape_allows_concat (sh1 sh2 : list nat) (axis : nat) : bool :=
  (length sh1 =? length sh2)%nat &&
  forallb (fun i => if (i =? axis)%nat then true
                    else bool_decide (sh1 !! i = sh2 !! i)) (seq 0 (length sh1)).

(** Append<0>, NDVecArray.hxx:208-230.  Lines 228-229 copy the whole storage
    of [other] (also if [other] is a view of part of it). *)
Definition aappend0 {A} (vd : nat) (junk : A) (this other : ndarr A) : option (ndarr A) :=
  if a_owns this && shape_allows_concat (a_shape this) (a_shape other) 0 then
    let app_offset := length (a_data this) in
    t ← aresize vd junk (alter (fun s => s + default 0 (a_shape other !! 0))%nat 0%nat (a_shape this)) this;
    d ← copy_n (a_data other) 0 (length (a_data other)) (a_data t) app_offset;
    Some (NDArr (a_shape t) (a_strides t) (a_off t) d true)
  else None.

(** Append(other, axis), NDVecArray.hxx:240-250: anything but axis 0 throws. *)
Inductive append_result A := AppOk (a : ndarr A) | AppNotImplemented | AppUB.
Arguments AppOk {A}. Arguments AppNotImplemented {A}. Arguments AppUB {A}.
Definition aappend {A} (vd : nat) (junk : A) (this other : ndarr A) (axis : nat) : append_result A :=
  if (axis =? 0)%nat then
    match aappend0 vd junk this other with Some a => AppOk a | None => AppUB end
  else if (axis <? length (a_shape this))%nat && a_owns this then AppNotImplemented else AppUB.

(** std::swap of two components of a vector. *)
Definition vswap (i j : nat) (v : list nat) : list nat :=
  match v !! i, v !! j with
  | Some x, Some y => <[i := y]> (<[j := x]> v)
  | _, _ => v
  end.

(** The (index, storage position) pairs of index_loop_over_elements,
    NDVecArray.hxx:300-327: rows, and inside a row consecutive positions. *)
Definition row_positions (vd n pos : nat) (cb : list nat) : list (list nat * nat) :=
  (fun k => (removelast cb ++ [(vlast cb + k)%nat], (pos + k * vd)%nat)) <$> seq 0 n.
Definition index_loop_positions (vd : nat) (strides : list nat) (off : nat) (s e : list nat)
  : option (list (list nat * nat)) :=
  let n := (vlast e - vlast s)%nat in
  chunks ← chunk_loop (loop_fuel e) s e (row_chunk (length e) n);
  Some (mjoin ((fun c => row_positions vd n (flat_ind strides off c.1) c.1) <$> chunks)).

(** loop_over_elements, NDVecArray.hxx:272-297: the elements in visiting order. *)
Definition aelements {A} (vd : nat) (a : ndarr A) : option (list (list A)) :=
  ps ← index_loop_positions vd (a_strides a) (a_off a) (replicate (length (a_shape a)) 0%nat) (a_shape a);
  mapM (fun p => block (a_data a) p.2 vd) ps.

(** SwapAxes, NDVecArray.hxx:252-270. *)
Definition aswap_axes {A} (vd : nat) (junk : A) (a1 a2 : nat) (this dest : ndarr A) : option (ndarr A) :=
  d ← aresize vd junk (vswap a1 a2 (a_shape this)) dest;
  ps ← index_loop_positions vd (a_strides this) (a_off this)
         (replicate (length (a_shape this)) 0%nat) (a_shape this);
  foldM (fun d p => v ← block (a_data this) p.2 vd; awrite vd d (vswap a1 a2 p.1) v) d ps.

(** IsAllNull, NDVecArray.hxx:377-403; [isz] is [val == 0.0]. *)
Definition ais_all_null {A} (vd : nat) (isz : A -> bool) (a : ndarr A) : option bool :=
  let n := vlast (a_shape a) in
  chunks ← array_chunk_loop (loop_fuel (a_shape a)) (a_shape a) (row_chunk (length (a_shape a)) n);
  foldM (fun (b : bool) c =>
           if b then r ← block (a_data a) (flat_ind (a_strides a) (a_off a) c.1) (n * vd); Some (forallb isz r)
           else Some false) true chunks.
