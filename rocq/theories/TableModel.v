(** Model of the tabulated profiles of the dipole application: applications/dipole/dipole.cxx and the reader of the tables, tests/test_utils/CSVReader.hxx.
    Over the real numbers: rounding is not modelled. *)
From Coq Require Import Reals Ascii Sorting.Sorted.
From stdpp Require Import base list numbers option.
Local Open Scope R_scope.

(** What a function does: it returns, it throws an exception, or an assertion fails or something outside of a vector is read. *)
Inductive outcome (A : Type) := Returns (x : A) | Throws | Undefined.
Arguments Returns {A}. Arguments Throws {A}. Arguments Undefined {A}.
Definition obind {A B} (f : A -> outcome B) (m : outcome A) : outcome B := match m with Returns x => f x | Throws => Throws | Undefined => Undefined end.
Definition defined {A} (m : option A) : outcome A := match m with Some x => Returns x | None => Undefined end.

(** * The table, dipole.cxx *)
(** std::sort, 81-86: the sorter is some permutation of the indices that is sorted for the comparison in lines 83-85; which one is not specified if arguments are equal. *)
Definition sorts (zs : list R) (sorter : list nat) : Prop :=
  sorter ≡ₚ seq 0 (length zs) /\ StronglySorted (fun i j => ~ nth j zs 0 < nth i zs 0) sorter.
(** reorder_vector, 9-16. *)
Definition reorder (v : list R) (inds : list nat) : option (list R) := mapM (fun i => v !! i) inds.
(** std::adjacent_find with the predicate of lines 27-29; line 30. *)
Fixpoint find_bracket (args : list R) (x : R) : option nat :=
  match args with
  | a :: (b :: _) as rest => if Rle_dec a x then (if Rlt_dec x b then Some 0%nat else S <$> find_bracket rest x) else S <$> find_bracket rest x
  | _ => None
  end.
(** lin_interp, 21-45; the assertions are in lines 23, 24, 40 and 41. *)
Definition lin_interp (args vals : list R) (x : R) : outcome R :=
  if ((length args =? length vals) && (2 <=? length args))%nat then
    match find_bracket args x with
    | None => Throws
    | Some i => match args !! i, args !! S i, vals !! i, vals !! S i with
      | Some a, Some b, Some fa, Some fb => if Rle_dec a x then if Rle_dec (x - a) (b - a) then Returns (fa + (fb - fa) / (b - a) * (x - a)) else Undefined else Undefined
      | _, _, _, _ => Undefined
      end
    end
  else Undefined.
(** The permittivity, 88-99: the tables are sorted and the index of refraction is squared. *)
Definition permittivity (zs iors : list R) (sorter : list nat) (z : R) : outcome R :=
  obind (fun zs' => obind (fun iors' => obind (fun ior => Returns (ior ^ 2)) (lin_interp zs' iors' z)) (defined (reorder iors sorter))) (defined (reorder zs sorter)).
(** The impulse response, 108-118: the table is used as it was read. *)
Definition impulse_response (ts rs : list R) (t : R) : outcome R :=
  match ts !! pred (length ts) with
  | None => Undefined
  | Some t_end => if Rle_dec t 0 then Returns 0 else if Rle_dec t_end t then Returns 0 else lin_interp ts rs t
  end.

(** * The reader, CSVReader.hxx *)
(** std::getline: the characters before the next [d]; the rest, or nothing if there is no further [d]. *)
Fixpoint getline (d : ascii) (s : list ascii) : list ascii * option (list ascii) :=
  match s with
  | [] => ([], None)
  | c :: s => if Ascii.eqb c d then ([], Some s) else let '(l, r) := getline d s in (c :: l, r)
  end.
(** The fields of a line, 52-57: as long as the stream of the line is good. *)
Fixpoint fields (fuel : nat) (line : list ascii) : list (list ascii) :=
  match fuel with
  | O => []
  | S fuel => let '(f, r) := getline ","%char line in f :: match r with None => [] | Some r => fields fuel r end
  end.
Section reader.
(** std::stof: the value of a string, or an exception. *)
Context (stof : list ascii -> option R).
Fixpoint numbers (l : list (list ascii)) : outcome (list R) :=
  match l with [] => Returns [] | f :: l => match stof f with None => Throws | Some x => obind (fun xs => Returns (x :: xs)) (numbers l) end end.
(** parse_row, 41-58. *)
Definition parse_row (line : list ascii) : outcome (list R) := match line with [] => Returns [] | _ => numbers (fields (S (length line)) line) end.
(** read_column, 68-81: as long as a line can be read, which fails at the end of the file; the row is read with operator[]. *)
Fixpoint read_column (fuel : nat) (col : nat) (file : list ascii) : outcome (list R) :=
  match fuel with
  | O => Returns []
  | S fuel => match file with
    | [] => Returns []
    | _ => let '(line, rest) := getline "010"%char file in
      obind (fun row => obind (fun x => obind (fun xs => Returns (x :: xs)) (match rest with None => Returns [] | Some r => read_column fuel col r end)) (defined (row !! col))) (parse_row line)
    end
  end.
Definition read_table_column (col : nat) (file : list ascii) : outcome (list R) := read_column (S (length file)) col file.
End reader.
