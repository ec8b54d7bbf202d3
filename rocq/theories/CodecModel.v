(** Model of eisvogel/core/impl/Serialization.hh and DefaultSerializationTraits.hxx.
    A byte is an [N] below 256, a stream is the list of bytes from the current
    position on.  Writing appends; reading consumes and yields [None] if
    the stream ends early (in C++ the failbit is set and the value is garbage). *)
From stdpp Require Import base list list_numbers numbers option.
From Coq Require Import NArith.

Notation byte := N (only parsing).
Notation bytes := (list N) (only parsing).

(** Memory image of a [k]-byte unsigned integer on the little-endian host
    (x86/aarch64), least significant byte first. *)
Fixpoint to_le (k : nat) (v : N) : bytes :=
  match k with O => [] | S k' => (v mod 256)%N :: to_le k' (v / 256) end.
Fixpoint of_le (l : bytes) : N :=
  match l with [] => 0%N | b :: l' => (b + 256 * of_le l')%N end.

(** htonl / ntohl on a little-endian host: reverse the 4 bytes (arpa/inet.h). *)
Definition htonl (v : N) : N := of_le (rev (to_le 4 v)).
Definition ntohl (v : N) : N := of_le (rev (to_le 4 v)).

(** htonll / ntohll, Serialization.hh:17-18: ((uint64_t)htonl(x & 0xFFFFFFFF) << 32) | htonl(x >> 32). *)
Definition htonll (x : N) : N := N.lor (N.shiftl (htonl (N.land x 0xFFFFFFFF)) 32) (htonl (N.shiftr x 32)).
Definition ntohll (x : N) : N := N.lor (N.shiftl (ntohl (N.land x 0xFFFFFFFF)) 32) (ntohl (N.shiftr x 32)).

(** stream.read of [n] bytes. *)
Definition read_bytes (n : nat) (s : bytes) : option (bytes * bytes) :=
  if (n <=? length s)%nat then Some (take n s, drop n s) else None.

(** A serialisation prescription Traits<T> (a pair of functions; [dom] are the
    values of the C++ type). *)
Record codec (A : Type) := Codec {
  enc : A -> bytes;
  dec : bytes -> option (A * bytes);
  dom : A -> Prop
}.
Arguments Codec {A}. Arguments enc {A}. Arguments dec {A}. Arguments dom {A}.

(** Traits<uint32_t>, DefaultSerializationTraits.hxx:7-22. *)
Definition u32 : codec N := Codec
  (fun v => to_le 4 (htonl v))
  (fun s => '(b, s') ← read_bytes 4 s; Some (ntohl (of_le b), s'))
  (fun v => v < 2 ^ 32)%N.

(** Traits<uint64_t> (= Traits<std::size_t>), DefaultSerializationTraits.hxx:24-39. *)
Definition u64 : codec N := Codec
  (fun v => to_le 8 (htonll v))
  (fun s => '(b, s') ← read_bytes 8 s; Some (ntohll (of_le b), s'))
  (fun v => v < 2 ^ 64)%N.

(** Traits<float>/Traits<double>, DefaultSerializationTraits.hxx:41-75.  A float is
    its bit pattern; reinterpret_cast and memcpy are the identity on it. *)
Definition f32 : codec N := u32.
Definition f64 : codec N := u64.

(** The element-by-element loops of lines 126-128 / 149-151 and 135-137 / 157-159. *)
Definition enc_all {A} (c : codec A) (l : list A) : bytes := mjoin (enc c <$> l).
Fixpoint dec_n {A} (c : codec A) (n : nat) (s : bytes) : option (list A * bytes) :=
  match n with
  | O => Some ([], s)
  | S n' => '(x, s1) ← dec c s; '(l, s2) ← dec_n c n' s1; Some (x :: l, s2)
  end.

(** Traits<std::vector<T>>, DefaultSerializationTraits.hxx:119-140. *)
Definition vec {A} (c : codec A) : codec (list A) := Codec
  (fun l => enc u64 (N.of_nat (length l)) ++ enc_all c l)
  (fun s => '(n, s1) ← dec u64 s; dec_n c (N.to_nat n) s1)
  (fun l => (N.of_nat (length l) < 2 ^ 64)%N /\ Forall (dom c) l).

(** Traits<std::array<T, n>>, DefaultSerializationTraits.hxx:142-162.  A C++
    Vector<T, n> derives its serialisation from this one. *)
Definition arr {A} (n : nat) (c : codec A) : codec (list A) := Codec
  (fun l => enc_all c l)
  (fun s => dec_n c n s)
  (fun l => length l = n /\ Forall (dom c) l).

(** Traits<std::vector<float>>, DefaultSerializationTraits.hxx:77-112: blocks of at most [bs] values. *)
Fixpoint float_blocks_enc (fuel bs : nat) (l : list N) : bytes :=
  match fuel with
  | O => []
  | S f => match l with
           | [] => []
           | _ => mjoin ((fun v => to_le 4 (htonl v)) <$> take (Nat.min (length l) bs) l)
                    ++ float_blocks_enc f bs (drop bs l)
           end
  end.
(** Inner loop of lines 103-108: split a buffer into 4-byte words. *)
Fixpoint words (n : nat) (b : bytes) : list N :=
  match n with O => [] | S n' => ntohl (of_le (take 4 b)) :: words n' (drop 4 b) end.
Fixpoint float_blocks_dec (fuel bs remaining : nat) (s : bytes) : option (list N * bytes) :=
  match remaining with
  | O => Some ([], s)
  | _ => match fuel with
         | O => None
         | S f => let k := Nat.min remaining bs in
             '(b, s1) ← read_bytes (4 * k) s;
             '(l, s2) ← float_blocks_dec f bs (remaining - k) s1;
             Some (words k b ++ l, s2)
         end
  end.
Definition vecf (bs : nat) : codec (list N) := Codec
  (fun l => enc u64 (N.of_nat (length l)) ++ float_blocks_enc (length l) bs l)
  (fun s => '(n, s1) ← dec u64 s; float_blocks_dec (N.to_nat n) bs (N.to_nat n) s1)
  (fun l => (N.of_nat (length l) < 2 ^ 64)%N /\ Forall (dom f32) l).

(** Traits<std::string>, DefaultSerializationTraits.hxx:202-218 (a string is its bytes). *)
Definition str : codec bytes := Codec
  (fun l => enc u64 (N.of_nat (length l)) ++ l)
  (fun s => '(n, s1) ← dec u64 s; read_bytes (N.to_nat n) s1)
  (fun l => (N.of_nat (length l) < 2 ^ 64)%N /\ Forall (fun b => b < 256)%N l).

(** std::map as the list of its pairs in key order; [ltb] is the key comparison.
    insert keeps an existing equal key (std::map::insert with a hint). *)
Fixpoint map_insert {K V} (ltb : K -> K -> bool) (k : K) (v : V) (m : list (K * V)) : list (K * V) :=
  match m with
  | [] => [(k, v)]
  | (k', v') :: m' => if ltb k k' then (k, v) :: m
                      else if ltb k' k then (k', v') :: map_insert ltb k v m'
                      else m
  end.

(** Traits<std::map<T1, T2>>, DefaultSerializationTraits.hxx:164-200; a size mismatch throws ([None]). *)
Definition mapc {K V} (ltb : K -> K -> bool) (ck : codec K) (cv : codec V) : codec (list (K * V)) := Codec
  (fun m => enc (vec ck) m.*1 ++ enc (vec cv) m.*2)
  (fun s => '(ks, s1) ← dec (vec ck) s; '(vs, s2) ← dec (vec cv) s1;
            if (length ks =? length vs)%nat
            then Some (foldl (fun m kv => map_insert ltb kv.1 kv.2 m) [] (zip ks vs), s2) else None)
  (fun m => (N.of_nat (length m) < 2 ^ 64)%N /\ Forall (fun kv => dom ck kv.1 /\ dom cv kv.2) m /\
            forall i j ki kj, (i < j)%nat -> m.*1 !! i = Some ki -> m.*1 !! j = Some kj ->
               ltb ki kj = true /\ ltb kj ki = false).

(** Records are written field by field. *)
Definition pairc {A B} (c : codec A) (d : codec B) : codec (A * B) := Codec
  (fun p => enc c p.1 ++ enc d p.2)
  (fun s => '(a, s1) ← dec c s; '(b, s2) ← dec d s1; Some ((a, b), s2))
  (fun p => dom c p.1 /\ dom d p.2).
