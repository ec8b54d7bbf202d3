(** Model of RStarTree<std::size_t, dims, PayloadT>, eisvogel/core/impl/RStarTree.hh:188-end and
    RStarTree.hxx:465-1469.  Nodes and entries live in memory pools and refer to
    each other by slot; NodePool::INVALID_SLOT is [None].  Failed asserts, accesses
    outside a pool and non-termination are the outcome [None].
    References held across pool growth are re-fetched in the C++ code (lines 642-665,
    1050-1064), hence reading the pool by slot is exact. *)
From stdpp Require Import base list list_numbers numbers option.
From Coq Require Import NArith.
From Verif Require Import NDArrayModel NullSupModel PoolModel BBoxModel.

(** TreeEntry, RStarTree.hh:200-206. *)
Record entry (P : Type) := Entry { en_box : bbox; en_pay : P }.
Arguments Entry {P}. Arguments en_box {P}. Arguments en_pay {P}.
(** TreeNode, RStarTree.hh:209-225; [n_children] are the first num_children components of
    child_slots (the stale rest of the fixed-size array is not modelled). *)
Record tnode := TNode { n_box : bbox; n_level : nat; n_children : list nat }.

Record rtree (P : Type) := RTree {
  t_root : option nat;                 (* m_root_slot *)
  t_last : option nat;                 (* m_last_accessed_entry_slot *)
  t_nodes : pool tnode;
  t_entries : pool (entry P)
}.
Arguments RTree {P}. Arguments t_root {P}. Arguments t_last {P}. Arguments t_nodes {P}. Arguments t_entries {P}.

(** RStarTree.hh:190-192; the number of re-inserted children is max(0.30f * 11, 1) = 3 (hxx:897-898). *)
Definition MAXN : nat := 10.
Definition MINN : nat := 2.
Definition REINS : nat := 3.

(** What the tree takes from the C++ library and floating point, left arbitrary here:
    std::sort and std::partial_sort (k smallest first) with a comparison, the distance of a
    box to a centre (see BBoxModel), and
    [slab n d] = ceil(pow((float) n, (float)(d - 1) / (float) d)), hxx:1434. *)
Record lib := Lib {
  std_sort : forall A : Type, (A -> A -> bool) -> list A -> list A;
  std_partial_sort : forall A : Type, nat -> (A -> A -> bool) -> list A -> list A;
  center_distance : bbox -> list N -> N;
  slab : nat -> nat -> nat
}.

Section tree.
Context {P : Type} (pd : P) (dims : nat) (L : lib).
Implicit Types t : rtree P.

Definition dflt_node : tnode := TNode (bbox_reset dims) 0 [].
Definition dflt_entry : entry P := Entry (bbox_reset dims) pd.

(** Constructor, RStarTree.hxx:478-482. *)
Definition rt_new (init : nat) : option (rtree P) :=
  ns ← pool_new dflt_node init; es ← pool_new dflt_entry init; Some (RTree None None ns es).

Definition get_node t (s : nat) : option tnode := pool_get (t_nodes t) s.
Definition get_entry t (s : nat) : option (entry P) := pool_get (t_entries t) s.
Definition set_node t (s : nat) (n : tnode) : option (rtree P) :=
  ns ← pool_set (t_nodes t) s n; Some (RTree (t_root t) (t_last t) ns (t_entries t)).
Definition set_entry t (s : nat) (e : entry P) : option (rtree P) :=
  es ← pool_set (t_entries t) s e; Some (RTree (t_root t) (t_last t) (t_nodes t) es).
Definition set_root t (r : option nat) : rtree P := RTree r (t_last t) (t_nodes t) (t_entries t).
Definition set_last t (r : option nat) : rtree P := RTree (t_root t) r (t_nodes t) (t_entries t).

(** get_bbox, RStarTree.hxx:806-818. *)
Definition get_bbox t (slot level : nat) : option bbox :=
  if (level =? 0)%nat then en_box <$> get_entry t slot else n_box <$> get_node t slot.
(** The children of a node paired with their boxes (for the comparisons). *)
Definition boxed t (level : nat) (slots : list nat) : option (list (nat * bbox)) :=
  mapM (fun s => b ← get_bbox t s level; Some (s, b)) slots.

(** build_new_entry, RStarTree.hxx:485-509. *)
Definition build_new_entry t (e : entry P) : option (nat * rtree P) :=
  '(s, es) ← pool_alloc dflt_entry (t_entries t);
  t' ← set_entry (RTree (t_root t) (t_last t) (t_nodes t) es) s e; Some (s, t').
(** add_child, RStarTree.hxx:470-475. *)
Definition add_child (n : tnode) (c : nat) : option tnode :=
  if (length (n_children n) <=? MAXN)%nat then Some (TNode (n_box n) (n_level n) (n_children n ++ [c])) else None.
(** build_new_node, RStarTree.hxx:512-534. *)
Definition build_new_node t (level : nat) (cs : list nat) : option (nat * rtree P) :=
  '(s, ns) ← pool_alloc dflt_node (t_nodes t);
  n ← foldM add_child (TNode (bbox_reset dims) level []) cs;
  t' ← set_node (RTree (t_root t) (t_last t) ns (t_entries t)) s n; Some (s, t').
(** recalculate_bbox, RStarTree.hxx:821-832. *)
Definition recalculate_bbox t (s : nat) : option (rtree P) :=
  n ← get_node t s;
  bs ← mapM (fun c => get_bbox t c (n_level n)) (n_children n);
  set_node t s (TNode (foldl bbox_extend (bbox_reset dims) bs) (n_level n) (n_children n)).

(** std::min_element with a comparison. *)
Definition min_element {A} (lt : A -> A -> bool) (l : list A) : option A :=
  match l with
  | [] => None
  | x :: l' => Some (foldl (fun best y => if lt y best then y else best) x l')
  end.

(** child_overlap_enlargement, RStarTree.hxx:767-790. *)
Definition child_overlap_enlargement (cs : list (nat * bbox)) (c : nat * bbox) (add : bbox) : N :=
  let ext := bbox_extend c.2 add in
  foldl (fun acc o => if (o.1 =? c.1)%nat then acc
                      else wadd acc (wsub (bbox_overlap_volume ext o.2) (bbox_overlap_volume c.2 o.2))) 0%N cs.
(** node_volume_enlargement, node_volume, RStarTree.hxx:793-804. *)
Definition node_volume_enlargement (b add : bbox) : N := wsub (bbox_volume (bbox_extend b add)) (bbox_volume b).

(** find_min_overlap_enlargement_child, RStarTree.hxx:700-732. *)
Definition find_min_overlap (cs : list (nat * bbox)) (add : bbox) : option nat :=
  fst <$> min_element (fun a b =>
    let oa := child_overlap_enlargement cs a add in
    let ob := child_overlap_enlargement cs b add in
    if (oa <? ob)%N then true
    else if (oa =? ob)%N then (node_volume_enlargement a.2 add <? node_volume_enlargement b.2 add)%N
    else false) cs.
(** find_min_volume_enlargement_child, RStarTree.hxx:735-764. *)
Definition find_min_volume (cs : list (nat * bbox)) (add : bbox) : option nat :=
  fst <$> min_element (fun a b =>
    let va := node_volume_enlargement a.2 add in
    let vb := node_volume_enlargement b.2 add in
    if (va <? vb)%N then true
    else if (va =? vb)%N then (bbox_volume a.2 <? bbox_volume b.2)%N
    else false) cs.
(** choose_subtree, RStarTree.hxx:675-698. *)
Definition choose_subtree t (slot level start : nat) : option nat :=
  n ← get_node t start; add ← get_bbox t slot level;
  if (0 <? n_level n)%nat then
    c0 ← head (n_children n); child ← get_node t c0;
    cs ← boxed t (n_level n) (n_children n);
    if (n_level child =? 0)%nat then find_min_overlap cs add else find_min_volume cs add
  else None.

(** The evaluation of one candidate split of [cs] after [k] children, RStarTree.hxx:986-1003:
    margins, volume and overlap of the two hulls. *)
Definition hull_of (cs : list (nat * bbox)) : bbox := foldl bbox_extend (bbox_reset dims) cs.*2.
Inductive edge := Lower | Upper.
Definition edge_key (e : edge) (axis : nat) (c : nat * bbox) : N :=
  match e with Lower => bb_start c.2 !!! axis | Upper => bb_end c.2 !!! axis end.
Definition edge_sort (e : edge) (axis : nat) (cs : list (nat * bbox)) : list (nat * bbox) :=
  std_sort L _ (fun a b => edge_key e axis a <? edge_key e axis b)%N cs.
(** number_possible_splits, RStarTree.hxx:938-940. *)
Definition NSPLITS : nat := MAXN + 2 - 2 * MINN.
(** The innermost loop, RStarTree.hxx:983-1016; state: margin, minimum overlap, minimum volume, best edge and split. *)
Definition eval_splits (e : edge) (cs : list (nat * bbox)) (st : N * N * N * edge * nat) : N * N * N * edge * nat :=
  foldl (fun '(margin, mo, mv, be, bs) k =>
    let b1 := hull_of (take (MINN + k) cs) in
    let b2 := hull_of (drop (MINN + k) cs) in
    let margin' := wadd margin (wadd (bbox_margin b1) (bbox_margin b2)) in
    let vol := wadd (bbox_volume b1) (bbox_volume b2) in
    let ov := bbox_overlap_volume b1 b2 in
    if (ov <? mo)%N || ((ov =? mo)%N && (vol <? mv)%N) then (margin', ov, vol, e, k) else (margin', mo, mv, be, bs))
    st (seq 0 NSPLITS).
(** One iteration over the axes, RStarTree.hxx:958-1026; state: the (re-ordered) children and
    best margin, axis, edge, split. *)
Definition split_axis (st : list (nat * bbox) * (N * nat * edge * nat)) (axis : nat) : list (nat * bbox) * (N * nat * edge * nat) :=
  let '(cs, best) := st in
  let cs1 := edge_sort Lower axis cs in
  let s1 := eval_splits Lower cs1 (0%N, (W - 1)%N, (W - 1)%N, Lower, 0%nat) in
  let cs2 := edge_sort Upper axis cs1 in
  let '(margin, _, _, be, bs) := eval_splits Upper cs2 s1 in
  (cs2, if (margin <? best.1.1.1)%N then (margin, axis, be, bs) else best).
(** split, RStarTree.hxx:931-1067. *)
Definition split t (s : nat) : option (nat * rtree P) :=
  n ← get_node t s;
  if (length (n_children n) =? MAXN + 1)%nat then
    cs ← boxed t (n_level n) (n_children n);
    let '(cs1, (_, axis, e, k)) := foldl split_axis (cs, ((W - 1)%N, 0%nat, Lower, 0%nat)) (seq 0 dims) in
    let cs2 := match e with
               | Lower => edge_sort Lower axis cs1
               | Upper => if (axis =? dims - 1)%nat then cs1 else edge_sort Upper axis cs1
               end in
    t1 ← set_node t s (TNode (n_box n) (n_level n) (take (MINN + k) cs2).*1);
    '(s', t2) ← build_new_node t1 (n_level n) (drop (MINN + k) cs2).*1;
    t3 ← recalculate_bbox t2 s';
    t4 ← recalculate_bbox t3 s;
    Some (s', t4)
  else None.

(** The splitting part of overflow_treatment, RStarTree.hxx:853-886. *)
Definition overflow_split t (s : nat) : option (option nat * rtree P) :=
  n ← get_node t s;
  if (length (n_children n) =? MAXN + 1)%nat then
    '(s', t1) ← split t s;
    if bool_decide (t_root t1 = Some s) then
      r ← get_node t1 s;
      '(root, t2) ← build_new_node t1 (n_level r + 1) [s; s'];
      t3 ← recalculate_bbox t2 root;
      Some (None, set_root t3 (Some root))
    else Some (Some s', t1)
  else None.

(** insert_slot, RStarTree.hxx:619-672, with overflow_treatment as a parameter. *)
Fixpoint insert_slot_with (overflow : rtree P -> nat -> option (option nat * rtree P)) (fuel : nat)
    t (slot level start : nat) : option (option nat * rtree P) :=
  match fuel with
  | O => None
  | S f =>
      n ← get_node t start;
      if (level <=? n_level n)%nat then
        add ← get_bbox t slot level;
        let n1 := TNode (bbox_extend (n_box n) add) (n_level n) (n_children n) in
        if (n_level n =? level)%nat then
          n2 ← add_child n1 slot;
          t1 ← set_node t start n2;
          if (MAXN <? length (n_children n2))%nat then overflow t1 start else Some (None, t1)
        else
          t1 ← set_node t start n1;
          c ← choose_subtree t1 slot level start;
          '(r, t2) ← insert_slot_with overflow f t1 slot level c;
          match r with
          | None => Some (None, t2)
          | Some new =>
              n2 ← get_node t2 start;
              n3 ← add_child n2 new;
              t3 ← set_node t2 start n3;
              if (MAXN <? length (n_children n3))%nat then overflow t3 start else Some (None, t3)
          end
      else None
  end.
(** insert_slot(slot, level, m_root_slot, false). *)
Definition insert_root t (slot level : nat) : option (option nat * rtree P) :=
  r ← t_root t; n ← get_node t r;
  insert_slot_with overflow_split (S (n_level n)) t slot level r.

(** reinsert, RStarTree.hxx:890-928. *)
Definition reinsert t (s : nat) : option (rtree P) :=
  n ← get_node t s;
  if (length (n_children n) =? MAXN + 1)%nat then
    cs ← boxed t (n_level n) (n_children n);
    let center := bbox_center (n_box n) in
    let cs' := std_partial_sort L _ (MAXN + 1 - REINS)%nat
                 (fun a b => center_distance L a.2 center <? center_distance L b.2 center)%N cs in
    t1 ← set_node t s (TNode (n_box n) (n_level n) (take (MAXN + 1 - REINS) cs').*1);
    t2 ← recalculate_bbox t1 s;
    foldM (fun t c => '(_, t') ← insert_root t c (n_level n); Some t') t2 (drop (MAXN + 1 - REINS) cs').*1
  else None.

(** overflow_treatment with first_insert = true, RStarTree.hxx:834-887. *)
Definition overflow_first t (s : nat) : option (option nat * rtree P) :=
  n ← get_node t s;
  if (length (n_children n) =? MAXN + 1)%nat then
    if bool_decide (t_root t = Some s) then overflow_split t s
    else t' ← reinsert t s; Some (None, t')
  else None.

(** InsertElement, RStarTree.hxx:536-559; the slot stands for the returned reference. *)
Definition insert_element t (p : P) (s e : list N) : option (nat * rtree P) :=
  '(slot, t1) ← build_new_entry t (Entry (mk_bbox s e) p);
  match t_root t1 with
  | None =>
      '(r, t2) ← build_new_node t1 0 [slot];
      t3 ← recalculate_bbox (set_root t2 (Some r)) r;
      Some (slot, t3)
  | Some r =>
      n ← get_node t1 r;
      '(_, t2) ← insert_slot_with overflow_first (S (n_level n)) t1 slot 0 r;
      Some (slot, t2)
  end.

(** search_entry_update_bbox, RStarTree.hxx:574-616. *)
Fixpoint first_containing t (c : list N) (slots : list nat) : option (option nat) :=
  match slots with
  | [] => Some None
  | s :: slots' => e ← get_entry t s; if bbox_contains (en_box e) c then Some (Some s) else first_containing t c slots'
  end.
Fixpoint update_bbox (fuel : nat) t (node : nat) (c s e : list N) : option (bool * rtree P) :=
  match fuel with
  | O => None
  | S f =>
      n ← get_node t node;
      if (n_level n =? 0)%nat then
        r ← first_containing t c (n_children n);
        match r with
        | Some slot => en ← get_entry t slot; t' ← set_entry t slot (Entry (mk_bbox s e) (en_pay en)); Some (true, t')
        | None => Some (false, t)
        end
      else
        (fix loop t (cs : list nat) : option (bool * rtree P) :=
           match cs with
           | [] => Some (false, t)
           | ch :: cs' =>
               '(b, t1) ← update_bbox f t ch c s e;
               if b : bool then t2 ← recalculate_bbox t1 ch; Some (true, t2) else loop t1 cs'
           end) t (n_children n)
  end.
(** UpdateBoundingBox, RStarTree.hxx:562-571 (undefined behaviour on an empty tree). *)
Definition update_bounding_box t (c s e : list N) : option (rtree P) :=
  r ← t_root t; n ← get_node t r;
  '(b, t1) ← update_bbox (S (n_level n)) t r c s e;
  if b : bool then recalculate_bbox t1 r else Some t1.

(** search_entry, RStarTree.hxx:1092-1127. *)
Fixpoint search_entry (fuel : nat) t (node : nat) (c : list N) : option (option nat) :=
  match fuel with
  | O => None
  | S f =>
      n ← get_node t node;
      if (n_level n =? 0)%nat then first_containing t c (n_children n)
      else
        (fix loop (cs : list nat) : option (option nat) :=
           match cs with
           | [] => Some None
           | ch :: cs' =>
               m ← get_node t ch;
               if bbox_contains (n_box m) c then
                 r ← search_entry f t ch c;
                 match r with Some s => Some (Some s) | None => loop cs' end
               else loop cs'
           end) (n_children n)
  end.
(** Search(coords), RStarTree.hxx:1070-1089 (undefined behaviour on an empty tree): the slot of
    the entry found and the updated tree. *)
Definition search_point t (c : list N) : option (option nat * rtree P) :=
  hit ← match t_last t with
        | Some l => e ← get_entry t l; Some (if bbox_contains (en_box e) c then Some l else None)
        | None => Some None
        end;
  match hit with
  | Some l => Some (Some l, t)
  | None =>
      r ← t_root t; n ← get_node t r;
      f ← search_entry (S (n_level n)) t r c;
      match f with
      | Some s => Some (Some s, set_last t (Some s))
      | None => Some (None, t)
      end
  end.
(** The payload the returned pointer refers to. *)
Definition payload_at t (s : nat) : option P := en_pay <$> get_entry t s.

(** search_overlapping_entry_and_add, RStarTree.hxx:1145-1176. *)
Fixpoint search_range_node (fuel : nat) t (node : nat) (b : bbox) : option (list P) :=
  match fuel with
  | O => None
  | S f =>
      n ← get_node t node;
      if (n_level n =? 0)%nat then
        es ← mapM (get_entry t) (n_children n);
        Some (en_pay <$> filter (fun e => bbox_overlaps b (en_box e) = true) es)
      else
        rs ← mapM (fun ch => m ← get_node t ch;
                             if bbox_overlaps b (n_box m) then search_range_node f t ch b else Some []) (n_children n);
        Some (mjoin rs)
  end.
(** Search(start, end), RStarTree.hxx:1130-1142. *)
Definition search_range t (s e : list N) : option (list P) :=
  match t_root t with
  | None => Some []
  | Some r => n ← get_node t r; search_range_node (S (n_level n)) t r (mk_bbox s e)
  end.

(** GetAllEntries / Apply, RStarTree.hxx:1179-1199. *)
Definition get_all_entries t : option (list P) :=
  match pool_elements (t_entries t) with Some es => Some (en_pay <$> es) | None => None end.
(** GetBoundingBox, RStarTree.hxx:1202-1211. *)
Definition get_bounding_box t : option bbox :=
  match t_root t with
  | None => Some (mk_bbox (replicate dims 0%N) (replicate dims 0%N))
  | Some r => n_box <$> get_node t r
  end.
(** Clear, Empty, RStarTree.hxx:1307-1318. *)
Definition rt_clear t : option (rtree P) :=
  ns ← pool_reset dflt_node (t_nodes t); es ← pool_reset dflt_entry (t_entries t); Some (RTree None None ns es).
Definition rt_empty t : bool := match t_root t with None => true | Some _ => false end.

(** The slab loop of sort_STR_and_apply_dimension, RStarTree.hxx:1444-1466. *)
Fixpoint slabs {A} (fuel per : nat) (l : list A) : option (list (list A)) :=
  match l with
  | [] => Some []
  | _ => match fuel with
         | O => None
         | S f => rest ← slabs f per (drop per l); Some (take per l :: rest)
         end
  end.
(** sort_STR_and_apply_dimension, RStarTree.hxx:1413-1469: the ranges handed to the worker, in
    order ([d] = dims - axis remaining dimensions).  Simplification: all ranges are computed
    before the worker runs; the worker does not change what the comparisons read. *)
Fixpoint str_groups {A} (box : A -> bbox) (d : nat) (l : list A) : option (list (list A)) :=
  match d with
  | O => None
  | S d' =>
      let axis := (dims - d)%nat in
      let l' := std_sort L _ (fun a b => bbox_center (box a) !!! axis <? bbox_center (box b) !!! axis)%N l in
      let per := (MAXN * slab L (int_div_ceil (length l') MAXN) d)%nat in
      gs ← slabs (length l') per l';
      match d' with
      | O => if forallb (fun g => length g <=? MAXN)%nat gs then Some gs else None
      | S _ => rs ← mapM (str_groups box d') gs; Some (mjoin rs)
      end
  end.
(** leaf_node_adder, RStarTree.hxx:1345-1359. *)
Definition add_leaf (st : rtree P * list nat) (g : list (entry P)) : option (rtree P * list nat) :=
  let '(t, slots) := st in
  '(t1, es) ← foldM (fun '(t, es) e => '(s, t') ← build_new_entry t e; Some (t', es ++ [s])) (t, []) g;
  '(s, t2) ← build_new_node t1 0 es;
  t3 ← recalculate_bbox t2 s;
  Some (t3, slots ++ [s]).
(** node_adder, RStarTree.hxx:1375-1384. *)
Definition add_inner (level : nat) (st : rtree P * list nat) (g : list nat) : option (rtree P * list nat) :=
  let '(t, slots) := st in
  '(s, t1) ← build_new_node t level g;
  t2 ← recalculate_bbox t1 s;
  Some (t2, slots ++ [s]).
(** The while loop over the layers, RStarTree.hxx:1368-1400. *)
Fixpoint str_layers (fuel level : nat) t (slots : list nat) : option (rtree P * list nat) :=
  if (1 <? length slots)%nat then
    match fuel with
    | O => None
    | S f =>
        cs ← boxed t level slots;
        gs ← str_groups snd dims cs;
        '(t', slots') ← foldM (add_inner level) (t, []) ((fun g : list (nat * bbox) => g.*1) <$> gs);
        str_layers f (S level) t' slots'
    end
  else Some (t, slots).
(** RebuildSTR, RStarTree.hxx:1320-1409. *)
Definition rebuild_str t : option (rtree P) :=
  ns ← pool_reset dflt_node (t_nodes t);
  entries ← pool_elements (t_entries t);
  es ← pool_reset dflt_entry (t_entries t);
  gs ← str_groups en_box dims entries;
  '(t1, slots) ← foldM add_leaf (RTree None None ns es, []) gs;
  '(t2, slots2) ← str_layers (length slots) 1 t1 slots;
  match slots2 with
  | [r] => Some (set_root t2 (Some r))
  | _ => None
  end.
End tree.
