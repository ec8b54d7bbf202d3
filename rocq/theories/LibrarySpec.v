(** Specification of the distributed array (C26, C27, C29, C30, C31): a list of chunks at disjoint index boxes; no index, cache or files. *)
From stdpp Require Import base list list_numbers numbers option gmap countable.
From Coq Require Import NArith.
From Verif Require Import IndexSpec NDArrayModel NDArrayProps CodecModel StreamerModel StreamerProps BBoxModel BBoxProps RTreeModel
  ChunkMetaModel ChunkCacheModel ChunkCacheSpec LibraryModel.

(** A chunk: the index box [c_start, c_end) it is responsible for, the width of the overlap stored around it, whether it was recognised as
    all-null, the name of its file, the serialisation chunk shape of that file and the stored array (with the overlap). *)
Record chunk := Chunk { c_start : list N; c_end : list N; c_ov : N; c_null : bool; c_file : bytes; c_ser : list nat; c_val : content }.
Definition covers (c : chunk) (ind : list N) : Prop := inbox (c_start c) (c_end c) ind.
(** The position of index [ind] in the stored array, and the vector there. *)
Definition position (c : chunk) (ind : list N) : list nat := zip_with (fun i s => N.to_nat (i + c_ov c - s)) ind (c_start c).
Definition value (c : chunk) (ind : list N) : list N := k_at (c_val c) (position c ind).
(** Boxes without common index. *)
Definition apart (s1 e1 s2 e2 : list N) : Prop := forall ind, inbox s1 e1 ind -> inbox s2 e2 ind -> False.

(** The smallest box [s, e) around all chunks; whether they fill it; how many indices it has. *)
Definition is_hull (dims : nat) (C : list chunk) (s e : list N) : Prop :=
  length s = dims /\ length e = dims /\
  (forall c ind, c ∈ C -> covers c ind -> inbox s e ind) /\
  (forall i x, s !! i = Some x -> exists c, c ∈ C /\ c_start c !! i = Some x) /\
  (forall i x, e !! i = Some x -> exists c, c ∈ C /\ c_end c !! i = Some x).
Definition gap_free (C : list chunk) (s e : list N) : Prop := forall ind, inbox s e ind -> exists c, c ∈ C /\ covers c ind.
Definition count (s e : list N) : N := foldr N.mul 1%N (zip_with N.sub e s).

(** The state of an array: its chunks; how many ids were handed out since it was opened; whether it was opened with chunks in it (and not
    cleared since); the serialisation chunk shape it writes with. *)
Record lstate := LState { ls_chunks : list chunk; ls_handed : N; ls_reopened : bool; ls_cs : list nat }.
Definition set_chunks (S : lstate) (C : list chunk) : lstate := LState C (ls_handed S) (ls_reopened S) (ls_cs S).

Section spec.
Context (vd dims : nat) (junk : N) (L : lib).

(** ** What may be registered, appended, imported *)
Definition ok_name (C : list chunk) (uuid : bytes) : Prop :=
  uuid <> [] /\ (N.of_nat (length uuid) < 2 ^ 64)%N /\ Forall (fun b => b < 256)%N uuid /\ Forall (fun c => c_file c <> uuid) C.
Record ok_register (S : lstate) (a : ndarr N) (s e : list N) (ov : N) (uuid : bytes) : Prop := {
  or_dims : length s = dims;
  or_box : nonempty s e;
  (* the array has the size of the box plus the overlap on both sides, and nothing reaches 2^64 *)
  or_shape : Forall2 (fun n se => N.of_nat n = se.2 - se.1 + 2 * ov)%N (a_shape a) (zip s e);
  or_fits : Forall (fun x => x + ov < 2 ^ 64)%N e;
  or_float : float_array vd a;
  or_countable : countable vd NullSuppressed (ls_cs S) (a_shape a);
  or_apart : Forall (fun c => apart s e (c_start c) (c_end c)) (ls_chunks S);
  or_name : ok_name (ls_chunks S) uuid;
  (* see C26_reopen_refuted *)
  or_ids : ls_reopened S = false /\ (ls_handed S < 2 ^ 32)%N }.
Definition registered (S : lstate) (a : ndarr N) (s e : list N) (ov : N) (null : bool) (uuid : bytes) : lstate :=
  LState (ls_chunks S ++ [Chunk s e ov null (if null then [] else uuid) (ls_cs S) (content_of vd a)]) (ls_handed S + 1) (ls_reopened S) (ls_cs S).
(** The optimisation is asked for and the array contains nothing but zeros. *)
Definition is_null_chunk (a : ndarr N) (opt : bool) (null : bool) : Prop :=
  null = true <-> opt = true /\ forall x v, in_shape (a_shape a) x -> aread vd a x = Some v -> null_vector v.

(** [c] is the chunk to which [slice] can be appended at [start] along the first axis, and what it becomes. *)
Definition grown_chunk (c : chunk) (slice : ndarr N) : chunk :=
  Chunk (c_start c)
        (match c_end c with [] => [] | x :: r => (x + N.of_nat (default 0%nat (head (a_shape slice))))%N :: r end)
        (c_ov c) (c_null c) (c_file c) (c_ser c) (concat0 (c_val c) (content_of vd slice)).
Record ok_append (S : lstate) (i : nat) (c : chunk) (start : list N) (slice : ndarr N) : Prop := {
  oa_chunk : ls_chunks S !! i = Some c;
  (* the slice starts where the chunk ends *)
  oa_start : exists x r, start = x :: r /\ head (c_end c) = Some x /\ covers c ((x - 1)%N :: r);
  oa_null : c_null c = false;
  oa_ov : c_ov c = 0%N;
  oa_float : float_array vd slice;
  oa_shape : length (a_shape slice) = dims /\ tail (a_shape slice) = tail (k_shape (c_val c));
  oa_fits : Forall (fun x => x < 2 ^ 64)%N (c_end (grown_chunk c slice));
  oa_aligned : aligned 0 (c_ser c) (k_shape (c_val c));
  oa_countable : countable vd NullSuppressed (c_ser c) (k_shape (c_val (grown_chunk c slice)));
  oa_apart : forall j c', ls_chunks S !! j = Some c' -> j <> i ->
    apart (c_start c) (c_end (grown_chunk c slice)) (c_start c') (c_end c') }.

Record ok_import (S S2 : lstate) (l : clib) (d : dir) : Prop := {
  oi_apart : forall c c2, c ∈ ls_chunks S -> c2 ∈ ls_chunks S2 -> apart (c_start c) (c_end c) (c_start c2) (c_end c2);
  (* different file names *)
  oi_names : forall c c2, c ∈ ls_chunks S -> c2 ∈ ls_chunks S2 -> c_file c = c_file c2 -> c_file c = [];
  oi_files : d_files d ##ₘ s_files (l_store l);
  oi_ids : ls_reopened S = false /\ (ls_handed S + N.of_nat (length (ls_chunks S2)) <= 2 ^ 32)%N }.
Definition imported (S S2 : lstate) : lstate :=
  LState (ls_chunks S ++ ls_chunks S2) (ls_handed S + N.of_nat (length (ls_chunks S2))) (ls_reopened S) (ls_cs S).

(** The range [is, ie) fits in the buffer at [os]. *)
Record ok_fill (buf : ndarr N) (is ie os : list N) : Prop := {
  of_array : api_array vd buf;
  of_dims : length is = dims /\ length os = dims;
  of_range : nonempty is ie;
  of_room : Forall2 (fun n x => x.1.2 - x.1.1 + x.2 <= N.of_nat n)%N (a_shape buf) (zip (zip is ie) os);
  of_small : Forall (fun n => N.of_nat n < 2 ^ 64)%N (a_shape buf) }.

(** The place of index [ind] in the buffer. *)
Definition place (is os ind : list N) : list nat := zip_with (fun d o => N.to_nat (d + o)) (zip_with N.sub ind is) os.

(** Exchanging two components, and two axes of the array: [d] are the new contents. *)
Definition exchange {A} (i j : nat) (v : list A) : list A :=
  match v !! i, v !! j with Some x, Some y => <[i := y]> (<[j := x]> v) | _, _ => v end.
Record ok_swap (S : lstate) (i j : nat) : Prop := {
  os_axes : (i < dims)%nat /\ (j < dims)%nat;
  os_null : forall c, c ∈ ls_chunks S -> c_null c = true -> c_ov c = 0%N;
  os_countable : forall c, c ∈ ls_chunks S -> countable vd NullSuppressed (ls_cs S) (exchange i j (k_shape (c_val c))) }.
Definition swapped_chunk (S : lstate) (i j : nat) (c : chunk) (d : ndarr N) : chunk :=
  Chunk (exchange i j (c_start c)) (exchange i j (c_end c)) (c_ov c) (c_null c) (c_file c) (ls_cs S) (content_of vd d).
Definition swapped (S : lstate) (i j : nat) (ds : list (ndarr N)) : lstate := set_chunks S (zip_with (swapped_chunk S i j) (ls_chunks S) ds).

(** ** All permitted histories: the arrays (objects of the program, [clib]) and the states they should be in *)
Definition reopened (S : lstate) (cs : list nat) : lstate :=
  LState (ls_chunks S) 0 (match ls_chunks S with [] => false | _ => true end) cs.
Definition cleared (S : lstate) : lstate := LState [] (ls_handed S) false (ls_cs S).
Inductive session : clib -> lstate -> Prop :=
  | ss_new size cs l : acceptable_chunk dims cs -> lib_open vd dims junk L size cs (Dir None ∅) = Done l -> session l (LState [] 0 false cs)
  | ss_reopen l0 S ord d size cs l : session l0 S -> (forall k, ord k ≡ₚ k) -> lib_close vd dims ord l0 = Done d ->
      acceptable_chunk dims cs -> lib_open vd dims junk L size cs d = Done l -> session l (reopened S cs)
  | ss_register l S a s e ov opt null uuid l' : session l S -> ok_register S a s e ov uuid -> is_null_chunk a opt null ->
      lib_register vd dims junk L a s e ov opt uuid l = Done l' -> session l' (registered S a s e ov null uuid)
  | ss_append l S i c start slice l' : session l S -> ok_append S i c start slice ->
      lib_append vd dims junk 0 start slice l = Done l' -> session l' (set_chunks S (<[i := grown_chunk c slice]> (ls_chunks S)))
  | ss_import l S l2 S2 ord d move l' d' : session l S -> session l2 S2 -> (forall k, ord k ≡ₚ k) -> lib_close vd dims ord l2 = Done d ->
      ok_import S S2 l d -> lib_import dims L d move l = Done (l', d') -> session l' (imported S S2)
  | ss_get l S ind v l' : session l S -> lib_get vd dims junk ind l = Done (v, l') ->
      (exists c, c ∈ ls_chunks S /\ covers c ind /\ (c_null c = true -> c_ov c = 0%N)) -> session l' S
  | ss_geometry l S g l' : session l S -> lib_geometry dims l = Done (g, l') -> session l' S
  | ss_flush l S ord l' : session l S -> (forall k, ord k ≡ₚ k) -> lib_flush vd dims ord l = Done l' -> session l' S
  | ss_clear l S ord l' : session l S -> (forall k, ord k ≡ₚ k) -> lib_clear vd dims ord l = Done l' -> session l' (cleared S)
  | ss_move l S ord l' d : session l S -> (forall k, ord k ≡ₚ k) -> lib_move vd dims ord (Dir None ∅) l = Done (l', d) -> session l' S
  | ss_fill l S buf is ie os b l' : session l S -> ok_fill buf is ie os ->
      lib_fill vd dims junk buf is ie os l = Done (b, l') -> session l' S
  | ss_loop l S is ie vs l' : session l S -> length is = dims -> nonempty is ie ->
      (forall c, c ∈ ls_chunks S -> c_null c = true -> c_ov c = 0%N) ->
      lib_loop vd dims junk is ie l = Done (vs, l') -> session l' S
  | ss_find l S ind r l' : session l S -> ls_chunks S <> [] -> length ind = dims -> Forall (fun x => x < 2 ^ 64)%N ind ->
      lib_find ind l = Done (r, l') -> session l' S
  (* retrieving a chunk of the index *)
  | ss_retrieve l S ms m d l' : session l S -> get_all_entries (l_tree l) = Some ms -> m ∈ ms -> cm_type m = specified ->
      lib_retrieve vd dims junk m l = Done (d, l') -> session l' S
  (* the new contents are those the program stored; C54 says what they are *)
  | ss_swap l S i j l' ds : session l S -> ok_swap S i j -> lib_swap_traced vd dims junk L i j l = Done (l', ds) -> session l' (swapped S i j ds).
End spec.
