(** Model of eisvogel/core/impl/Cache.hh and Cache.hxx.
    A CacheElement* is the element's position in m_storage, nullptr is [None];
    dereferencing nullptr or a failed assert is the outcome [None].
    The fields of the elements of m_storage are kept in two parallel lists: the
    links (next, prev) and the data (occupied, index, payload); simplification
    of the record layout only. *)
From stdpp Require Import base list numbers option countable gmap.

Record link := Link { l_next : option nat; l_prev : option nat }.
(** Cache.hh:49-62; [e_index] is uninitialised ([None]) until the first insertion. *)
Record cdata K V := CData { e_occ : bool; e_index : option K; e_payload : V }.
Arguments CData {K V}. Arguments e_occ {K V}. Arguments e_index {K V}. Arguments e_payload {K V}.

(** Data members, Cache.hh:72-78. *)
Record cache K V `{Countable K} := Cache {
  c_depth : nat;
  c_map : gmap K nat;                (* m_accessor *)
  c_links : list link; c_data : list (cdata K V);   (* m_storage *)
  c_oldest : option nat; c_newest : option nat
}.
Arguments Cache {K V _ _}. Arguments c_depth {K V _ _}. Arguments c_map {K V _ _}. Arguments c_links {K V _ _}.
Arguments c_data {K V _ _}. Arguments c_oldest {K V _ _}. Arguments c_newest {K V _ _}.

Section model.
Context {K V : Type} `{Countable K}.
Implicit Types c : cache K V.

(** Constructor, Cache.hxx:5-33: element i is linked to i-1 and i+1.
    depth = 0 makes front()/back() undefined: excluded by the caller of [cnew]. *)
Definition link_of (depth i : nat) : link :=
  Link (if (S i <? depth)%nat then Some (S i) else None) (match i with O => None | S j => Some j end).
Definition cnew (depth : nat) (init : V) : option (cache K V) :=
  if (depth =? 0)%nat then None else
  Some (Cache depth ∅ (link_of depth <$> seq 0 depth) (replicate depth (CData false None init)) (Some 0%nat) (Some (depth - 1)%nat)).

(** Pointer assignments [p -> next = q] and [p -> prev = q]. *)
Definition set_next (ls : list link) (p : nat) (q : option nat) : list link := alter (fun e => Link q (l_prev e)) p ls.
Definition set_prev (ls : list link) (p : nat) (q : option nat) : list link := alter (fun e => Link (l_next e) q) p ls.

(** mark_as_oldest, Cache.hxx:136-162. *)
Definition mark_as_oldest (c : cache K V) (el : nat) : option (cache K V) :=
  e ← c_links c !! el;
  match l_prev e with
  | None => Some c
  | Some pr =>
      let ls1 := set_next (c_links c) pr (l_next e) in
      let '(ls2, newest) := match l_next e with
                            | Some nx => (set_prev ls1 nx (l_prev e), c_newest c)
                            | None => (ls1, l_prev e)
                            end in
      let ls3 := set_prev ls2 el None in
      let ls4 := set_next ls3 el (c_oldest c) in
      old ← c_oldest c;
      let ls5 := set_prev ls4 old (Some el) in
      Some (Cache (c_depth c) (c_map c) ls5 (c_data c) (Some el) newest)
  end.

(** mark_as_newest, Cache.hxx:164-190. *)
Definition mark_as_newest (c : cache K V) (el : nat) : option (cache K V) :=
  e ← c_links c !! el;
  match l_next e with
  | None => Some c
  | Some nx =>
      let ls1 := set_prev (c_links c) nx (l_prev e) in
      let '(ls2, oldest) := match l_prev e with
                            | Some pr => (set_next ls1 pr (l_next e), c_oldest c)
                            | None => (ls1, l_next e)
                            end in
      let ls3 := set_next ls2 el None in
      let ls4 := set_prev ls3 el (c_newest c) in
      new ← c_newest c;
      let ls5 := set_next ls4 new (Some el) in
      Some (Cache (c_depth c) (c_map c) ls5 (c_data c) oldest (Some el))
  end.

(** contains, Cache.hxx:72-75; has_free_slot, 67-70. *)
Definition ccontains (c : cache K V) (k : K) : bool := bool_decide (is_Some (c_map c !! k)).
Definition has_free_slot (c : cache K V) : bool := (size (c_map c) <? c_depth c)%nat.

(** insert_no_overwrite / insert_ref_no_overwrite, Cache.hxx:35-65, followed by the store
    of the payload through the returned reference. *)
Definition cinsert (c : cache K V) (k : K) (v : V) : option (cache K V) :=
  if ccontains c k then None else
  loc ← c_oldest c; d ← c_data c !! loc;
  if e_occ d then None else
  let c1 := Cache (c_depth c) (c_map c) (c_links c) (<[loc := CData true (Some k) (e_payload d)]> (c_data c)) (c_oldest c) (c_newest c) in
  c2 ← mark_as_newest c1 loc;
  Some (Cache (c_depth c2) (<[k := loc]> (c_map c2)) (c_links c2)
          (alter (fun d => CData (e_occ d) (e_index d) v) loc (c_data c2)) (c_oldest c2) (c_newest c2)).

(** get, Cache.hxx:89-98. *)
Definition cget (c : cache K V) (k : K) : option (V * cache K V) :=
  el ← c_map c !! k;
  c1 ← mark_as_newest c el;
  d ← c_data c1 !! el; Some (e_payload d, c1).

(** get followed by a store through the returned reference. *)
Definition cupdate (c : cache K V) (k : K) (v : V) : option (cache K V) :=
  '(_, c1) ← cget c k;
  el ← c_map c1 !! k;
  Some (Cache (c_depth c1) (c_map c1) (c_links c1) (alter (fun d => CData (e_occ d) (e_index d) v) el (c_data c1)) (c_oldest c1) (c_newest c1)).

(** m_accessor.erase(entry -> index) *)
Definition erase_index (m : gmap K nat) (d : cdata K V) : gmap K nat :=
  match e_index d with Some k => delete k m | None => m end.

(** evict_oldest_from_full_cache, Cache.hxx:100-114. *)
Definition cevict_oldest (c : cache K V) : option (V * cache K V) :=
  if has_free_slot c then None else
  el ← c_oldest c; d ← c_data c !! el;
  Some (e_payload d,
        Cache (c_depth c) (erase_index (c_map c) d) (c_links c)
          (<[el := CData false (e_index d) (e_payload d)]> (c_data c)) (c_oldest c) (c_newest c)).

(** evict, Cache.hxx:116-132. *)
Definition cevict (c : cache K V) (k : K) : option (V * cache K V) :=
  if negb (ccontains c k) then None else
  el ← c_map c !! k; d ← c_data c !! el;
  let c1 := Cache (c_depth c) (c_map c) (c_links c) (<[el := CData false (e_index d) (e_payload d)]> (c_data c)) (c_oldest c) (c_newest c) in
  c2 ← mark_as_oldest c1 el;
  Some (e_payload d, Cache (c_depth c2) (erase_index (c_map c2) d) (c_links c2) (c_data c2) (c_oldest c2) (c_newest c2)).

(** loop_over_elements_old_to_new, Cache.hxx:192-204: payloads in visiting order
    ([None]: more than [fuel] steps). *)
Fixpoint walk_next (fuel : nat) (c : cache K V) (cur : option nat) : option (list V) :=
  match cur with
  | None => Some []
  | Some p => match fuel with
              | O => None
              | S f => d ← c_data c !! p; l ← c_links c !! p;
                       rest ← walk_next f c (l_next l);
                       Some (if e_occ d then e_payload d :: rest else rest)
              end
  end.
Definition old_to_new (c : cache K V) : option (list V) := walk_next (c_depth c) c (c_oldest c).
(** loop_over_elements_new_to_old, Cache.hxx:206-218. *)
Fixpoint walk_prev (fuel : nat) (c : cache K V) (cur : option nat) : option (list V) :=
  match cur with
  | None => Some []
  | Some p => match fuel with
              | O => None
              | S f => d ← c_data c !! p; l ← c_links c !! p;
                       rest ← walk_prev f c (l_prev l);
                       Some (if e_occ d then e_payload d :: rest else rest)
              end
  end.
Definition new_to_old (c : cache K V) : option (list V) := walk_prev (c_depth c) c (c_newest c).
(** contained_elements, Cache.hxx:77-87 (the order of unordered_map is unspecified). *)
Definition contained (c : cache K V) : list K := (map_to_list (c_map c)).*1.
End model.
