(** Specification vocabulary for index vectors, boxes and orders.
    Nothing here refers to the modelled code; an index vector is a list of
    natural numbers (outermost axis first). *)
From stdpp Require Import base list numbers.

(** [in_box b e x]: [x] lies in the half-open box [b, e) along every axis
    (and the three vectors have the same dimensionality). *)
Fixpoint in_box (b e x : list nat) : Prop :=
  match b, e, x with
  | [], [], [] => True
  | b0 :: b', e0 :: e', x0 :: x' => (b0 <= x0 < e0)%nat /\ in_box b' e' x'
  | _, _, _ => False
  end.

(** Index [x] is valid for an array of the given shape. *)
Definition in_shape (sh x : list nat) : Prop := in_box (replicate (length sh) 0%nat) sh x.

(** Strict lexicographic (row-major) order on index vectors of equal length. *)
Fixpoint lex_lt (x y : list nat) : Prop :=
  match x, y with
  | x0 :: x', y0 :: y' => (x0 < y0)%nat \/ (x0 = y0 /\ lex_lt x' y')
  | _, _ => False
  end.

(** Number of index vectors in a shape. *)
Fixpoint volume (sh : list nat) : nat :=
  match sh with [] => 1 | s :: sh' => s * volume sh' end%nat.

(** A list of half-open boxes tiles the box [b, e): every box is non-empty,
    lies inside, and every index of [b, e) lies in exactly one of them. *)
Definition tiles (boxes : list (list nat * list nat)) (b e : list nat) : Prop :=
  (forall c, c ∈ boxes -> exists x, in_box c.1 c.2 x) /\
  (forall c x, c ∈ boxes -> in_box c.1 c.2 x -> in_box b e x) /\
  (forall x, in_box b e x ->
     exists k c, boxes !! k = Some c /\ in_box c.1 c.2 x /\
       forall k' c', boxes !! k' = Some c' -> in_box c'.1 c'.2 x -> k' = k).

(** Component-wise operations. *)
Definition vadd : list nat -> list nat -> list nat := zip_with Nat.add.
Definition vsub : list nat -> list nat -> list nat := zip_with Nat.sub.
Definition vmul : list nat -> list nat -> list nat := zip_with Nat.mul.
