(** Model of the construction of one rebuilt chunk with overlap: the worker [rebuilder] of RebuildChunksPartial,
    eisvogel/core/impl/DistributedNDVecArray.hxx:1228-1286, index_loop_over_penetrating_chunk_elements, 1298-1328,
    and the cylindrical boundary evaluator, eisvogel/core/impl/Symmetry.hxx:3-26.
    Signed index vectors (Vector<int>) are lists of Z (indices below 2^31 are assumed: no overflow).
    A loop over a signed index box is modelled by the sequence of indices it visits (C02 is about the loop itself).
    [None]: a failed assert or an access outside the buffer. *)
From stdpp Require Import base list list_numbers numbers option.
From Coq Require Import ZArith.
From Verif Require Import LoopsModel NDArrayModel.

(** The indices visited by index_loop_over_elements(b, e, worker), IteratorUtils.hh:12-45, for signed indices. *)
Definition zrange (b e : Z) : list Z := (fun i => b + Z.of_nat i)%Z <$> seq 0 (Z.to_nat (e - b)).
Fixpoint zbox (b e : list Z) : list (list Z) :=
  match b, e with
  | [], [] => [[]]
  | b0 :: b', e0 :: e' => mjoin ((fun i => cons i <$> zbox b' e') <$> zrange b0 e0)
  | _, _ => []
  end.

(** as_type<std::size_t>() of a signed difference used as an index: a negative component becomes a value far
    outside any array. *)
Fixpoint to_local (start x : list Z) : option (list nat) :=
  match start, x with
  | [], [] => Some []
  | s :: start', x0 :: x' => if (x0 <? s)%Z then None else l ← to_local start' x'; Some (Z.to_nat (x0 - s) :: l)
  | _, _ => None
  end.

(** is_boundary_element, lines 1250-1259. *)
Fixpoint is_boundary (gs ge : list nat) (x : list Z) : bool :=
  match gs, ge, x with
  | s :: gs', e :: ge', x0 :: x' => (Z.of_nat e <=? x0)%Z || (x0 <? Z.of_nat s)%Z || is_boundary gs' ge' x'
  | _, _, _ => false
  end.

(** The boundary slices of one direction, lines 1308-1326: [cs], [ce] are chunk_start_ind and chunk_end_ind.  The loop
    ranges use intersect_start_ind = max(start, chunk_start) and intersect_end_ind = min(end, chunk_end), 1303-1304. *)
Definition slices_of_dim (gs ge : list nat) (cs ce : list Z) (dim : nat) : option (list (list Z)) :=
  s ← gs !! dim; e ← ge !! dim; c ← cs !! dim; d ← ce !! dim;
  let left := if (c <? Z.of_nat s)%Z then zbox cs (<[dim := Z.max (Z.of_nat s) c]> ce) else [] in
  let right := if (Z.of_nat e <? d)%Z then zbox (<[dim := Z.min (Z.of_nat e) d]> cs) ce else [] in
  Some (left ++ right).
(** index_loop_over_penetrating_chunk_elements, lines 1298-1328: the sequence of calls of the worker. *)
Definition penetrating (gs ge : list nat) (cs ce : list Z) : option (list (list Z)) :=
  ls ← mapM (slices_of_dim gs ge cs ce) (seq 0 (length cs)); Some (mjoin ls).

(** Cylindrical::boundary_evaluator, Symmetry.hxx:3-26; the radial index is the first component (RZT). *)
Definition boundary_evaluator {A} (vd : nat) (zero : A) (chunk : ndarr A) (chunk_start elem : list Z) : option (list A) :=
  match elem with
  | r :: rest =>
      if (r <? 0)%Z then
        loc ← to_local chunk_start (Z.abs r :: rest);
        if has_index (a_shape chunk) loc then aread vd chunk loc else None
      else Some (replicate vd zero)
  | [] => None
  end.

(** boundary_filler, lines 1279-1283: the evaluator assigns to the view chunk_buffer[local_ind]. *)
Definition boundary_filler {A} (vd : nat) (zero : A) (gs ge : list nat) (es : list Z) (buf : ndarr A) (x : list Z) : option (ndarr A) :=
  if is_boundary gs ge x then
    loc ← to_local es x;
    v ← boundary_evaluator vd zero buf es x;
    awrite vd buf loc v
  else None.

(** rebuilder up to RegisterChunk, lines 1228-1285; [fill buf s e out] is FillArray(chunk_buffer, s, e, out). *)
Definition rebuild_buffer {A} (vd : nat) (junk zero : A) (fill : ndarr A -> list nat -> list nat -> list nat -> option (ndarr A))
    (gs ge : list nat) (overlap : nat) (buf : ndarr A) (cs ce : list nat) : option (ndarr A) :=
  let es := (fun s => Z.of_nat s - Z.of_nat overlap)%Z <$> cs in
  let ee := (fun e => Z.of_nat e + Z.of_nat overlap)%Z <$> ce in
  let esh := (fun n => n + 2 * overlap)%nat <$> zip_with Nat.sub ce cs in
  let fs := zip_with (fun g e => Z.to_nat (Z.max (Z.of_nat g) e)) gs es in
  let fe := zip_with (fun g e => Z.to_nat (Z.min (Z.of_nat g) e)) ge ee in
  out ← to_local es (Z.of_nat <$> fs);
  buf1 ← aresize vd junk esh buf;
  buf2 ← fill buf1 fs fe out;
  xs ← penetrating gs ge es ee;
  foldM (boundary_filler vd zero gs ge es) buf2 xs.
