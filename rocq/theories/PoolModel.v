(** Model of MemoryPool<T>, eisvogel/core/impl/RStarTree.hh:12-113 and
    RStarTree.hxx:4-245.  Slot::INVALID is [None]; a failed assert or an access
    outside m_data / m_slots is the outcome [None].  [dflt] is T(). *)
From stdpp Require Import base list numbers option.
From Verif Require Import CacheModel NDArrayModel.

(** Data members, RStarTree.hh:97-112; a Slot (next_data_ind, prev_data_ind) is a [link]. *)
Record pool (T : Type) := Pool {
  p_init : nat;
  p_fs : option nat; p_fe : option nat;   (* m_free_start, m_free_end *)
  p_as : option nat; p_ae : option nat;   (* m_alloc_start, m_alloc_end *)
  p_data : list T; p_slots : list link
}.
Arguments Pool {T}. Arguments p_init {T}. Arguments p_fs {T}. Arguments p_fe {T}. Arguments p_as {T}.
Arguments p_ae {T}. Arguments p_data {T}. Arguments p_slots {T}.

(** m_slots[p].next_data_ind = q / m_slots[p].prev_data_ind = q *)
Definition slot_next (ls : list link) (p : nat) (q : option nat) : option (list link) :=
  if (p <? length ls)%nat then Some (set_next ls p q) else None.
Definition slot_prev (ls : list link) (p : nat) (q : option nat) : option (list link) :=
  if (p <? length ls)%nat then Some (set_prev ls p q) else None.

(** remove_from_slot_list, RStarTree.hxx:137-166: new slots, list_start, list_end. *)
Definition slot_remove (ls : list link) (x : nat) (st en : option nat) : option (list link * option nat * option nat) :=
  e ← ls !! x;
  '(ls1, st1) ← match l_prev e with
                | Some pr => l ← slot_next ls pr (l_next e); Some (l, st)
                | None => Some (ls, l_next e)
                end;
  '(ls2, en1) ← match l_next e with
                | Some nx => l ← slot_prev ls1 nx (l_prev e); Some (l, en)
                | None => Some (ls1, l_prev e)
                end;
  Some (ls2, st1, en1).

(** add_to_slot_list_back, RStarTree.hxx:169-192. *)
Definition slot_add_back (ls : list link) (x : nat) (st en : option nat) : option (list link * option nat * option nat) :=
  if (x <? length ls)%nat then
    match en with
    | Some e => l1 ← slot_next ls e (Some x);
                l2 ← slot_prev l1 x (Some e);
                l3 ← slot_next l2 x None;
                Some (l3, st, Some x)
    | None => match st with
              | None => l1 ← slot_prev ls x None;
                        l2 ← slot_next l1 x None;
                        Some (l2, Some x, Some x)
              | Some _ => None
              end
    end
  else None.

(** The loops of reset_slot_lists (37-39) and grow (105-107): add the slots [xs] to the free list. *)
Definition add_free (ls : list link) (st en : option nat) (xs : list nat) : option (list link * option nat * option nat) :=
  foldM (fun '(ls, st, en) x => slot_add_back ls x st en) (ls, st, en) xs.

Section pool.
Context {T : Type} (dflt : T).

(** Constructor (5-10) and reset (13-22), both ending in reset_slot_lists (25-40). *)
Definition pool_fresh (n : nat) : option (pool T) :=
  '(ls, st, en) ← add_free (replicate n (Link None None)) None None (seq 0 n);
  Some (Pool n st en None None (replicate n dflt) ls).
Definition pool_new (n : nat) : option (pool T) := pool_fresh n.
Definition pool_reset (p : pool T) : option (pool T) := pool_fresh (p_init p).

(** operator[], RStarTree.hxx:43-50, for reading and writing. *)
Definition pool_get (p : pool T) (i : nat) : option T := p_data p !! i.
Definition pool_set (p : pool T) (i : nat) (v : T) : option (pool T) :=
  if (i <? length (p_data p))%nat
  then Some (Pool (p_init p) (p_fs p) (p_fe p) (p_as p) (p_ae p) (<[i := v]> (p_data p)) (p_slots p)) else None.

(** grow, RStarTree.hxx:91-110. *)
Definition pool_grow (p : pool T) : option (pool T) :=
  let cur := length (p_data p) in
  let new := (2 * cur)%nat in
  let data := vresize dflt new (p_data p) in
  let ls := p_slots p ++ replicate (new - cur) (Link None None) in
  '(ls', st, en) ← add_free ls (p_fs p) (p_fe p) (seq cur (new - cur));
  Some (Pool (p_init p) st en (p_as p) (p_ae p) data ls').

(** get_empty_slot_front, RStarTree.hxx:60-78. *)
Definition pool_alloc (p : pool T) : option (nat * pool T) :=
  p1 ← match p_fs p with None => pool_grow p | Some _ => Some p end;
  x ← p_fs p1;
  '(ls1, fs, fe) ← slot_remove (p_slots p1) x (p_fs p1) (p_fe p1);
  '(ls2, as_, ae) ← slot_add_back ls1 x (p_as p1) (p_ae p1);
  Some (x, Pool (p_init p1) fs fe as_ ae (p_data p1) ls2).

(** free_slot, RStarTree.hxx:81-88. *)
Definition pool_free (p : pool T) (x : nat) : option (pool T) :=
  '(ls1, as_, ae) ← slot_remove (p_slots p) x (p_as p) (p_ae p);
  '(ls2, fs, fe) ← slot_add_back ls1 x (p_fs p) (p_fe p);
  Some (Pool (p_init p) fs fe as_ ae (p_data p) ls2).

(** loop_over_elements_front_to_back, RStarTree.hxx:220-231 (at most [fuel] steps). *)
Fixpoint slot_walk (fuel : nat) (ls : list link) (cur : option nat) : option (list nat) :=
  match cur with
  | None => Some []
  | Some x => match fuel with
              | O => None
              | S f => l ← ls !! x; rest ← slot_walk f ls (l_next l); Some (x :: rest)
              end
  end.
(** apply / fill_elements, RStarTree.hxx:113-130: the live elements in visiting order. *)
Definition pool_elements (p : pool T) : option (list T) :=
  xs ← slot_walk (length (p_slots p)) (p_slots p) (p_as p);
  mapM (fun x => p_data p !! x) xs.
End pool.
