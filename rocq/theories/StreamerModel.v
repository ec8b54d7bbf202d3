(** Model of eisvogel/core/impl/NDVecArrayStreamer.hh and NDVecArrayStreamer.hxx
    (float arrays; a scalar is its 32-bit pattern). *)
From stdpp Require Import base list list_numbers numbers option.
From Verif Require Import LoopsModel NDArrayModel CodecModel NullSupModel.
From Coq Require Import NArith.

(** StreamerMode and AccessMode, NDVecArrayStreamer.hh:10-22. *)
Inductive smode := Automatic | Dense | NullSuppressed.
Definition smode_num (m : smode) : N := match m with Automatic => 0 | Dense => 1 | NullSuppressed => 2 end%N.
Definition smode_of (n : N) : option smode :=
  if (n =? 0)%N then Some Automatic else if (n =? 1)%N then Some Dense else if (n =? 2)%N then Some NullSuppressed else None.
Inductive amode := Allowed | NotAllowed.
Definition amode_num (m : amode) : N := match m with Allowed => 0 | NotAllowed => 1 end%N.
Definition amode_of (n : N) : amode := if (n =? 1)%N then NotAllowed else Allowed.

(** stor::INFTY, NDVecArrayStreamer.hh:28. *)
Definition INFTY : N := (2 ^ 64 - 1)%N.

(** NDVecArrayStreamerMetadata, NDVecArrayStreamer.hxx:12-25.  Extents are size_t. *)
Record smeta := SMeta { m_cs : list nat; m_shape : list nat; m_mode : amode }.

(** A Vector<size_t, dims> is written as dims values. *)
Definition enc_shape (sh : list nat) : bytes := enc (arr (length sh) u64) (N.of_nat <$> sh).
Definition dec_shape (dims : nat) (s : bytes) : option (list nat * bytes) :=
  (fun x : list N * list N => (N.to_nat <$> x.1, x.2)) <$> dec (arr dims u64) s.

(** Traits<NDVecArrayStreamerMetadata>, NDVecArrayStreamer.hxx:38-58. *)
Definition enc_meta (m : smeta) : bytes :=
  enc_shape (m_cs m) ++ enc_shape (m_shape m) ++ enc u64 (amode_num (m_mode m)).
Definition dec_meta (dims : nat) (s : bytes) : option (smeta * bytes) :=
  '(cs, s1) ← dec_shape dims s; '(sh, s2) ← dec_shape dims s1; '(a, s3) ← dec u64 s2;
  Some (SMeta cs sh (amode_of a), s3).

(** Traits<NDVecArrayStreamerChunkMetadata>, NDVecArrayStreamer.hxx:60-75. *)
Definition enc_chunk_meta (m : smode) (n : nat) : bytes := enc u64 (smode_num m) ++ enc u64 (N.of_nat n).
Definition dec_chunk_meta (s : bytes) : option (option smode * nat * bytes) :=
  '(m, s1) ← dec u64 s; '(n, s2) ← dec u64 s1; Some (smode_of m, N.to_nat n, s2).

(** write_buffer / read_into_buffer, NDVecArrayStreamer.hxx:77-89: raw memory of 32-bit words. *)
Definition buffer_bytes (buf : list N) : bytes := mjoin (to_le 4 <$> buf).
Fixpoint raw_words (n : nat) (b : bytes) : list N :=
  match n with O => [] | S n' => of_le (take 4 b) :: raw_words n' (drop 4 b) end.
Definition read_buffer (n : nat) (s : bytes) : option (list N * bytes) :=
  '(b, s') ← read_bytes (4 * n) s; Some (raw_words n b, s').

(** is_serialization_chunk_well_formed, NDVecArrayStreamer.hxx:97-107. *)
Definition well_formed (cs : list nat) : bool :=
  (1 <=? length (filter (fun c => N.of_nat c <> INFTY) cs))%nat.
(** permits_equally_sized_serialization_chunks, NDVecArrayStreamer.hxx:109-119. *)
Definition permits_equal (sh cs : list nat) : bool :=
  forallb (fun p : nat * nat => let (s, c) := p in negb ((c <? s)%nat && negb (s mod c =? 0)%nat)) (zip sh cs).

(** Elements of a view in the order of loop_over_elements (dense) or of
    index_loop_over_array_elements + operator[] (null suppression). *)
Definition indexed_elements {A} (vd : nat) (a : ndarr A) : option (list (list A)) :=
  idx ← elem_loop (loop_fuel (a_shape a)) (replicate (length (a_shape a)) 0%nat) (a_shape a);
  mapM (aread vd a) idx.

(** One chunk of serialize_all_chunks_dense (NDVecArrayStreamer.hxx:335-350) or
    serialize_all_chunks_null_suppressed (359-374); writing more
    than the buffer holds is undefined behaviour ([None]). *)
Definition ser_chunk (vd : nat) (m : smode) (a : ndarr N) (c : list nat * list nat) : option bytes :=
  let v := aview a c.1 c.2 in
  match m with
  | Dense =>
      els ← aelements vd v;
      let buf := dense_to_buffer els in
      if (length buf <=? compute_volume vd (zip_with Nat.sub c.2 c.1))%nat
      then Some (enc_chunk_meta Dense (length buf) ++ buffer_bytes buf) else None
  | NullSuppressed =>
      els ← indexed_elements vd v;
      let buf := suppress_null vd els in
      if (length buf <=? nullsup_buflen (number_elements (zip_with Nat.sub c.2 c.1)) vd)%nat
      then Some (enc_chunk_meta NullSuppressed (length buf) ++ buffer_bytes buf) else None
  | Automatic => None
  end.

(** Outcome of a call that writes: completed, threw an exception after having
    written some bytes, or undefined behaviour / non-termination. *)
Inductive wresult := WOk (b : bytes) | WThrow (b : bytes) | WUndef.

(** serialize_all_chunks, NDVecArrayStreamer.hxx:146-165, 331-377. *)
Definition ser_all_chunks (vd : nat) (m : smode) (a : ndarr N) (cs : list nat) : wresult :=
  match m with
  | Automatic => WThrow []
  | _ => match (chunks ← array_chunk_loop (loop_fuel (a_shape a)) (a_shape a) cs;
                bs ← mapM (ser_chunk vd m a) chunks; Some (mjoin bs)) with
         | Some b => WOk b
         | None => WUndef
         end
  end.

(** serialize, NDVecArrayStreamer.hxx:121-144: the header is written before the mode is looked at. *)
Definition serialize (vd : nat) (m : smode) (a : ndarr N) (cs : list nat) : wresult :=
  if well_formed cs then
    let hdr := enc_meta (SMeta cs (a_shape a) (if permits_equal (a_shape a) cs then Allowed else NotAllowed)) in
    match ser_all_chunks vd m a cs with
    | WOk b => WOk (hdr ++ b) | WThrow b => WThrow (hdr ++ b) | WUndef => WUndef
    end
  else WThrow [].

(** Storing decoded elements through the view of one chunk (loop_over_elements on
    the view; NDVecArraySerialization.hh:55-64, 174-198).  Simplification: the
    elements are decoded first and then stored, instead of alternately. *)
Definition store_chunk {A} (vd : nat) (a : ndarr A) (c : list nat * list nat) (els : list (list A)) : option (ndarr A) :=
  let v := aview a c.1 c.2 in
  ps ← index_loop_positions vd (a_strides v) (a_off v) (replicate (length (a_shape v)) 0%nat) (a_shape v);
  d ← foldM (fun d (pe : (list nat * nat) * list A) => set_block d pe.1.2 pe.2) (a_data a) (zip ps els);
  Some (NDArr (a_shape a) (a_strides a) (a_off a) d (a_owns a)).

(** chunk_deserializer, NDVecArrayStreamer.hxx:178-206. *)
Definition deser_chunk (vd : nat) (st : ndarr N * bytes) (c : list nat * list nat) : option (ndarr N * bytes) :=
  let '(a, s) := st in
  '(m, n, s1) ← dec_chunk_meta s;
  '(buf, s2) ← read_buffer n s1;
  let ne := number_elements (zip_with Nat.sub c.2 c.1) in
  match m with
  | Some Dense => '(els, r) ← dense_from_buffer vd ne buf;
      if (length r =? 0)%nat then a' ← store_chunk vd a c els; Some (a', s2) else None
  | Some NullSuppressed => '(els, r) ← desuppress_null vd ne buf;
      if (length r =? 0)%nat then a' ← store_chunk vd a c els; Some (a', s2) else None
  | _ => None
  end.

(** deserialize, NDVecArrayStreamer.hxx:167-209. *)
Definition deserialize (vd dims : nat) (junk : N) (target : ndarr N) (s : bytes) : option (ndarr N * bytes) :=
  '(meta, s1) ← dec_meta dims s;
  t ← aresize vd junk (m_shape meta) target;
  chunks ← array_chunk_loop (loop_fuel (a_shape t)) (a_shape t) (m_cs meta);
  foldM (deser_chunk vd) (t, s1) chunks.

(** append_slice, NDVecArrayStreamer.hxx:254-309, for a stream (file) holding exactly the
    array, positioned at its start: the new contents of the file. *)
Definition append_slice (vd dims : nat) (m : smode) (slice : ndarr N) (axis : nat) (file : bytes) : wresult :=
  match dec_meta dims file with
  | None => WUndef
  | Some (meta, rest) =>
      match m_mode meta with
      | NotAllowed => WThrow file
      | Allowed =>
          if shape_allows_concat (m_shape meta) (a_shape slice) axis then
            let meta' := SMeta (m_cs meta)
                 (alter (fun s => s + default 0 (a_shape slice !! axis))%nat axis (m_shape meta))
                 (if permits_equal (a_shape slice) (m_cs meta) then Allowed else NotAllowed) in
            match ser_all_chunks vd m slice (m_cs meta) with
            | WOk b => WOk (enc_meta meta' ++ rest ++ b)
            | WThrow b => WThrow (enc_meta meta' ++ rest ++ b)
            | WUndef => WUndef
            end
          else WThrow file
      end
  end.

(** mark_as_final, NDVecArrayStreamer.hxx:311-327. *)
Definition mark_as_final (dims : nat) (file : bytes) : option bytes :=
  '(meta, rest) ← dec_meta dims file;
  match m_mode meta with
  | NotAllowed => Some file
  | Allowed => Some (enc_meta (SMeta (m_cs meta) (m_shape meta) NotAllowed) ++ rest)
  end.
