(** Model of BoundingBox<std::size_t, dims>, eisvogel/core/impl/RStarTree.hh:121-184 and
    RStarTree.hxx:303-446.  Coordinates are size_t: numbers below 2^64 with
    wrap-around arithmetic; a Vector<size_t, dims> is the list of its components. *)
From stdpp Require Import base list list_numbers numbers option.
From Coq Require Import NArith.

Definition W : N := (2 ^ 64)%N.
Definition wadd (a b : N) : N := ((a + b) mod W)%N.
Definition wsub (a b : N) : N := ((a + W - b) mod W)%N.
Definition wmul (a b : N) : N := ((a * b) mod W)%N.

Record bbox := BBox { bb_start : list N; bb_end : list N; bb_shape : list N }.

(** Constructor from coordinates, RStarTree.hxx:307-309; also update (345-350) and the assignments
    of build_new_entry (488-491). *)
Definition mk_bbox (s e : list N) : bbox := BBox s e (zip_with wsub e s).
(** Default constructor (303-305) and reset_bounding_box (352-357). *)
Definition bbox_reset (dims : nat) : bbox :=
  BBox (replicate dims (W - 1)%N) (replicate dims 0%N) (replicate dims 0%N).
(** extend, RStarTree.hxx:328-343; VectorUtils::min/max are component-wise (Vector.hxx:61-98). *)
Definition bbox_extend (b o : bbox) : bbox :=
  let s := zip_with N.min (bb_start b) (bb_start o) in
  let e := zip_with N.max (bb_end b) (bb_end o) in
  BBox s e (zip_with wsub e s).

(** contains for size_t, RStarTree.hxx:364-374: the single comparison per axis. *)
Fixpoint contains_loop (s sh c : list N) : bool :=
  match s, sh, c with
  | s0 :: s', sh0 :: sh', c0 :: c' => if (sh0 <=? wsub c0 s0)%N then false else contains_loop s' sh' c'
  | _, _, _ => true
  end.
Definition bbox_contains (b : bbox) (c : list N) : bool := contains_loop (bb_start b) (bb_shape b) c.

(** overlaps, RStarTree.hxx:377-393. *)
Fixpoint overlaps_loop (s1 e1 s2 e2 : list N) : bool :=
  match s1, e1, s2, e2 with
  | a :: s1', b :: e1', c :: s2', d :: e2' =>
      if (d <=? a)%N then false else if (b <=? c)%N then false else overlaps_loop s1' e1' s2' e2'
  | _, _, _, _ => true
  end.
Definition bbox_overlaps (b o : bbox) : bool := overlaps_loop (bb_start b) (bb_end b) (bb_start o) (bb_end o).

(** volume, margin, RStarTree.hxx:396-403. *)
Definition bbox_volume (b : bbox) : N := foldl wmul 1%N (bb_shape b).
Definition bbox_margin (b : bbox) : N := foldl wadd 0%N (bb_shape b).

(** compute_overlap_volume, RStarTree.hxx:406-428. *)
Fixpoint overlap_vol_loop (acc : N) (s e : list N) : N :=
  match s, e with
  | s0 :: s', e0 :: e' => if (s0 <? e0)%N then overlap_vol_loop (wmul acc (wsub e0 s0)) s' e' else 0%N
  | _, _ => acc
  end.
Definition bbox_overlap_volume (b o : bbox) : N :=
  overlap_vol_loop 1 (zip_with N.max (bb_start b) (bb_start o)) (zip_with N.min (bb_end b) (bb_end o)).

(** compute_center, RStarTree.hxx:430-433.  (compute_center_distance, 435-446, sums in double
    precision through VectorUtils::inner, Vector.hxx:54-58; it only ranks the candidates for
    re-insertion and is an arbitrary function in the tree model.) *)
Definition bbox_center (b : bbox) : list N := (fun x => x / 2)%N <$> zip_with wadd (bb_start b) (bb_end b).
