(** Specification of the tabulated profiles (C77). *)
From Coq Require Import Reals Ascii.
From stdpp Require Import base list numbers option.
Local Open Scope R_scope.

(** A table: pairs of an argument and a value, in any order.  [a] and [b] are the rows next to [x]. *)
Definition neighbours (table : list (R * R)) (x : R) (a b : R * R) : Prop :=
  a ∈ table /\ b ∈ table /\ a.1 <= x < b.1 /\ forall p, p ∈ table -> p.1 <= a.1 \/ b.1 <= p.1.
(** The value at [x] on the line through [a] and [b]. *)
Definition on_line (a b : R * R) (x : R) : R := a.2 + (b.2 - a.2) / (b.1 - a.1) * (x - a.1).
(** [v] is the value at [x] of the function that is linear between the rows of the table. *)
Definition profile (table : list (R * R)) (x v : R) : Prop := exists a b, neighbours table x a b /\ v = on_line a b x.
(** [x] is in the range of the table. *)
Definition in_range (table : list (R * R)) (x : R) : Prop := (exists p, p ∈ table /\ p.1 <= x) /\ (exists p, p ∈ table /\ x < p.1).

(** The text of a table: the fields of a row are separated by commas, every line but perhaps the last one ends with a newline. *)
Fixpoint row_text (row : list (list ascii)) : list ascii := match row with [] => [] | [f] => f | f :: r => f ++ "," :: row_text r end%char.
Fixpoint table_text (rows : list (list (list ascii))) (final : bool) : list ascii :=
  match rows with [] => [] | [r] => row_text r ++ (if final then ["010"] else []) | r :: rows => row_text r ++ "010" :: table_text rows final end%char.
