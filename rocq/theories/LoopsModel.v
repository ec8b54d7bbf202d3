(** Model of eisvogel/core/impl/IteratorUtils.hh.
    A loop is modelled by the sequence of arguments with which it calls its
    worker; a stateful worker is a fold over this sequence. [None] = the loop
    does not terminate within the given number of iterations per axis (fuel). *)
From stdpp Require Import base list numbers option.

(** [for(cur = begin; cur < end; cur++)]: IteratorUtils.hh:18 and 33-34. *)
Fixpoint for_loop (fuel cur e : nat) : option (list nat) :=
  if (cur <? e)%nat then
    match fuel with
    | O => None
    | S f => rest ← for_loop f (S cur) e; Some (cur :: rest)
    end
  else Some [].

(** index_loop_over_elements_dimension, IteratorUtils.hh:12-27 (and the
    hand-unrolled 2-d overload 29-38, which performs the same iteration).
    [cur] is the index vector filled so far; the recursion over axes is the
    template recursion on [cur_dim]. *)
Fixpoint elem_loop_dim (fuel : nat) (cur b e : list nat) : option (list (list nat)) :=
  match b, e with
  | [], [] => Some [cur]
  | b0 :: b', e0 :: e' =>
      is ← for_loop fuel b0 e0;
      rs ← mapM (fun i => elem_loop_dim fuel (cur ++ [i]) b' e') is;
      Some (mjoin rs)
  | _, _ => None  (* excluded by the C++ types: both have vec_dims components *)
  end.

(** index_loop_over_elements, IteratorUtils.hh:40-45. *)
Definition elem_loop (fuel : nat) (b e : list nat) : option (list (list nat)) :=
  elem_loop_dim fuel [] b e.

(** The while loop of index_loop_over_chunks_dimension along one axis,
    IteratorUtils.hh:66-78: the successive (chunk_begin, chunk_end) pairs.
    Simplification: [chunk_begin + chunk_size] is computed without wrap-around
    here; see [chunk_steps_w] for the 64-bit version. *)
Fixpoint chunk_steps (fuel cb e cs : nat) : option (list (nat * nat)) :=
  if (cb <? e)%nat then
    match fuel with
    | O => None
    | S f =>
        let ce := Nat.min (cb + cs) e in
        rest ← chunk_steps f ce e cs; Some ((cb, ce) :: rest)
    end
  else Some [].

(** The same loop with size_t (mod 2^64) addition, IteratorUtils.hh:66-78. *)
Fixpoint chunk_steps_w (fuel : nat) (cb e cs : N) : option (list (N * N)) :=
  if (cb <? e)%N then
    match fuel with
    | O => None
    | S f =>
        let ce := N.min ((cb + cs) mod 2 ^ 64) e in
        rest ← chunk_steps_w f ce e cs; Some ((cb, ce) :: rest)
    end
  else Some [].

(** index_loop_over_chunks_dimension, IteratorUtils.hh:58-79. *)
Fixpoint chunk_loop_dim (fuel : nat) (cb ce b e cs : list nat)
  : option (list (list nat * list nat)) :=
  match b, e, cs with
  | [], [], [] => Some [(cb, ce)]
  | b0 :: b', e0 :: e', c0 :: cs' =>
      ss ← chunk_steps fuel b0 e0 c0;
      rs ← mapM (fun s => chunk_loop_dim fuel (cb ++ [s.1]) (ce ++ [s.2]) b' e' cs') ss;
      Some (mjoin rs)
  | _, _, _ => None  (* excluded by the C++ types *)
  end.

(** index_loop_over_chunks, IteratorUtils.hh:81-87. *)
Definition chunk_loop (fuel : nat) (b e cs : list nat) : option (list (list nat * list nat)) :=
  chunk_loop_dim fuel [] [] b e cs.

(** index_loop_over_array_chunks, IteratorUtils.hh:89-96: over [0, shape). *)
Definition array_chunk_loop (fuel : nat) (sh cs : list nat) : option (list (list nat * list nat)) :=
  chunk_loop fuel (replicate (length sh) 0%nat) sh cs.

(** Enough iterations for any axis of a box with upper corner [e]. *)
Definition loop_fuel (e : list nat) : nat := foldr Nat.max 0%nat e.

(** [operator>=] on [Vector] is component-wise: Vector.hh:112-119. *)
Fixpoint vgeb (x y : list nat) : bool :=
  match x, y with
  | x0 :: x', y0 :: y' => (y0 <=? x0)%nat && vgeb x' y'
  | _, _ => true
  end.

(** empty_range, IteratorUtils.hh:101-110: the loop over [i] compares the whole
    vectors, so it is true only if every axis is empty. *)
Definition empty_range (b e : list nat) : bool :=
  existsb (fun _ => vgeb b e) (seq 0 (length b)).
