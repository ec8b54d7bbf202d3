(** Specification of the chunk store (C24, C25, C28): a chunk is its current contents, no cache, no files. *)
From stdpp Require Import base list list_numbers numbers option gmap countable.
From Coq Require Import NArith.
From Verif Require Import IndexSpec NDArrayModel NDArrayProps CodecModel StreamerModel StreamerProps ChunkMetaModel ChunkCacheModel.

(** The contents of an array: its shape and the vector at every index. *)
Record content := Content { k_shape : list nat; k_at : list nat -> list N }.
Definition content_of (vd : nat) (a : ndarr N) : content := Content (a_shape a) (fun x => default [] (aread vd a x)).
(** Concatenation along the first axis. *)
Definition concat0 (c1 c2 : content) : content :=
  let n1 := default 0%nat (head (k_shape c1)) in
  Content (match k_shape c1 with
           | [] => []
           | _ :: sh => (n1 + default 0%nat (head (k_shape c2)))%nat :: sh
           end)
          (fun x => match x with
                    | [] => []
                    | i :: r => if (i <? n1)%nat then k_at c1 (i :: r) else k_at c2 ((i - n1)%nat :: r)
                    end).
(** The array [a] returned for contents [c]: same shape and same vectors, where a vector of zeros of any sign may come back as +0. *)
Definition returns (vd : nat) (a : ndarr N) (c : content) : Prop :=
  a_shape a = k_shape c /\
  forall x, in_shape (k_shape c) x -> exists v, aread vd a x = Some v /\ comes_back NullSuppressed (k_at c x) v.
Definition null_vector (v : list N) : Prop := Forall (fun b => b = 0 \/ b = 2 ^ 31)%N v.

(** What a client does with a store.  The metadata object is the client's handle of a chunk; appending returns the new handle. *)
Inductive sop :=
  | SRegister (m : chunk_meta) (a : ndarr N)
  | SReplace (m m' : chunk_meta) (a : ndarr N)
  | SAppend (m : chunk_meta) (slice : ndarr N)          (* along the first axis *)
  | SRemove (m : chunk_meta)
  | SRetrieve (m : chunk_meta)
  | SFlush (ord : list N -> list N).
Inductive sout := ONone | OChunk (a : ndarr N) | OMeta (m : chunk_meta).

(** The handle after appending. *)
Definition grown (m : chunk_meta) (slice : ndarr N) : chunk_meta :=
  let n := N.of_nat (default 0%nat (head (a_shape slice))) in
  let bump v := match v with [] => [] | x :: r => (x + n)%N :: r end in
  ChunkMeta (cm_type m) (cm_path m) (cm_id m) (cm_pos m) (bump (cm_shape m)) (cm_start m) (bump (cm_end m)) (cm_overlap m) (cm_off m).

Section spec.
Context (vd dims : nat) (cs : list nat).
Notation sstate := (gmap N (chunk_meta * content)).

Definition spec_step (A : sstate) (o : sop) : sstate :=
  match o with
  | SRegister m a => <[cm_id m := (m, content_of vd a)]> A
  | SReplace _ m' a => <[cm_id m' := (m', content_of vd a)]> A
  | SAppend m slice => match A !! cm_id m with
                       | Some (_, c) => <[cm_id m := (grown m slice, concat0 c (content_of vd slice))]> A
                       | None => A
                       end
  | SRemove m => delete (cm_id m) A
  | SRetrieve _ | SFlush _ => A
  end.

(** A chunk that can be stored: a float array of the right dimension and of countable size, with a file name, or declared all-null
    (then it must be, and have no empty extent). *)
Definition ok_chunk (m : chunk_meta) (a : ndarr N) : Prop :=
  float_array vd a /\ length (a_shape a) = dims /\ countable vd NullSuppressed cs (a_shape a) /\
  ((cm_type m = specified /\ cm_path m <> []) \/
   (cm_type m = all_null /\ cm_path m = [] /\ Forall (fun s => 0 < s)%nat (a_shape a) /\
    forall x v, in_shape (a_shape a) x -> aread vd a x = Some v -> null_vector v)).
(** A chunk that can be retrieved as a whole: any but all-null chunks with overlap (whose recorded shape is not that of the array; see
    C28_overlap_refuted). *)
Definition readable (m : chunk_meta) (c : content) : Prop := cm_type m = specified \/ (N.to_nat <$> cm_shape m) = k_shape c.
(** No other chunk uses the same file. *)
Definition own_file (A : sstate) (m : chunk_meta) : Prop :=
  forall k m' c, A !! k = Some (m', c) -> k <> cm_id m -> cm_path m' = cm_path m -> cm_path m = [].

(** The calls a client may make. *)
Definition valid_op (A : sstate) (o : sop) : Prop :=
  match o with
  | SRegister m a => A !! cm_id m = None /\ ok_chunk m a /\ own_file A m
  | SReplace m m' a => is_Some (A !! cm_id m) /\ cm_id m' = cm_id m /\ ok_chunk m' a /\ own_file A m'
  | SAppend m slice => exists c, A !! cm_id m = Some (m, c) /\ cm_type m = specified /\
      (* the slice fits, the stored part consists of complete serialisation chunks *)
      float_array vd slice /\ tail (a_shape slice) = tail (k_shape c) /\ length (a_shape slice) = dims /\
      (N.to_nat <$> cm_shape m) = k_shape c /\ length (cm_end m) = dims /\
      (default 0 (head (cm_end m)) + N.of_nat (default 0%nat (head (a_shape slice))) < 2 ^ 64)%N /\
      aligned 0 cs (k_shape c) /\ countable vd NullSuppressed cs (k_shape (concat0 c (content_of vd slice)))
  | SRemove m => True
  | SRetrieve m => exists c, A !! cm_id m = Some (m, c) /\ readable m c
  | SFlush ord => forall l, ord l ≡ₚ l
  end.
Definition out_ok (A : sstate) (o : sop) (r : sout) : Prop :=
  match o with
  | SRetrieve m => exists a m' c, r = OChunk a /\ A !! cm_id m = Some (m', c) /\ returns vd a c
  | SAppend m slice => r = OMeta (grown m slice)
  | _ => r = ONone
  end.
Fixpoint valid_history (A : sstate) (h : list sop) : Prop :=
  match h with [] => True | o :: h' => valid_op A o /\ valid_history (spec_step A o) h' end.
Fixpoint spec_run (A : sstate) (h : list sop) : sstate :=
  match h with [] => A | o :: h' => spec_run (spec_step A o) h' end.
Fixpoint outs_ok (A : sstate) (h : list sop) (rs : list sout) : Prop :=
  match h, rs with
  | [], [] => True
  | o :: h', r :: rs' => out_ok A o r /\ outs_ok (spec_step A o) h' rs'
  | _, _ => False
  end.
End spec.

(** The same calls on the model of the code. *)
Definition cstep (vd dims : nat) (junk : N) (s : cstore) (o : sop) : res (sout * cstore) :=
  match o with
  | SRegister m a => s' ← register_new_chunk vd dims junk m a s; Done (ONone, s')
  | SReplace m m' a => s' ← replace_chunk vd dims junk m m' a s; Done (ONone, s')
  | SAppend m slice => '(m', s') ← cache_append_slice vd dims junk 0 m slice s; Done (OMeta m', s')
  | SRemove m => s' ← remove_chunk m s; Done (ONone, s')
  | SRetrieve m => '(a, s') ← retrieve_chunk vd dims junk m s; Done (OChunk a, s')
  | SFlush ord => s' ← flush_cache vd dims ord s; Done (ONone, s')
  end.
Fixpoint crun (vd dims : nat) (junk : N) (s : cstore) (h : list sop) : res (list sout * cstore) :=
  match h with
  | [] => Done ([], s)
  | o :: h' => '(r, s1) ← cstep vd dims junk s o; '(rs, s2) ← crun vd dims junk s1 h'; Done (r :: rs, s2)
  end.
