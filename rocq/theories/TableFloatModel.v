(** Model of lin_interp of applications/dipole/dipole.cxx in 32-bit floats, the type with which it is used; every operation is rounded on its own, to nearest. *)
From Coq Require Import ZArith Bool Sorting.Sorted Sorting.Permutation.
From stdpp Require Import base list numbers option.
From Flocq Require Import Core IEEE754.BinarySingleNaN.
From Verif Require Import AntennaModel TableModel.

(** std::adjacent_find with the predicate of lines 27-29; line 30. *)
Fixpoint find_bracket32 (args : list f32) (x : f32) : option nat :=
  match args with
  | a :: (b :: _) as rest => if Bleb a x && Bltb x b then Some 0%nat else S <$> find_bracket32 rest x
  | _ => None
  end.
(** lin_interp, 21-45; the assertions are in lines 23, 24, 40 and 41. *)
Definition lin_interp32 (args vals : list f32) (x : f32) : outcome f32 :=
  if ((length args =? length vals) && (2 <=? length args))%nat then
    match find_bracket32 args x with
    | None => Throws
    | Some i => match args !! i, args !! S i, vals !! i, vals !! S i with
      | Some a, Some b, Some fa, Some fb =>
        if Bleb a x && Bleb (Bminus mode_NE x a) (Bminus mode_NE b a) then
          Returns (Bplus mode_NE fa (Bmult mode_NE (Bdiv mode_NE (Bminus mode_NE fb fa) (Bminus mode_NE b a)) (Bminus mode_NE x a)))
        else Undefined
      | _, _, _, _ => Undefined
      end
    end
  else Undefined.
(** std::sort, 81-86: some permutation of the indices that is sorted for the comparison in lines 83-85. *)
Definition sorts32 (zs : list f32) (sorter : list nat) : Prop :=
  Permutation sorter (seq 0 (length zs)) /\ StronglySorted (fun i j => Bltb (nth j zs (B754_zero false)) (nth i zs (B754_zero false)) = false) sorter.
(** reorder_vector, 9-16. *)
Definition reorder32 (v : list f32) (inds : list nat) : option (list f32) := mapM (fun i => v !! i) inds.
(** The permittivity, 88-99: std::pow(ior, 2.0) is calculated in doubles, where the square of a float is exact (that std::pow returns it is assumed), and is converted to a float. *)
Definition permittivity32 (zs iors : list f32) (sorter : list nat) (z : f32) : outcome f32 :=
  obind (fun zs' => obind (fun iors' => obind (fun ior => Returns (to_float (Bmult mode_NE (to_double ior) (to_double ior)))) (lin_interp32 zs' iors' z)) (defined (reorder32 iors sorter))) (defined (reorder32 zs sorter)).
(** The impulse response, 108-118: t <= 0 and 0.0 are compared and returned as floats (exact). *)
Definition impulse_response32 (ts rs : list f32) (t : f32) : outcome f32 :=
  match ts !! Nat.pred (length ts) with
  | None => Undefined
  | Some t_end => if Bleb t (B754_zero false) || Bleb t_end t then Returns (B754_zero false) else lin_interp32 ts rs t
  end.
