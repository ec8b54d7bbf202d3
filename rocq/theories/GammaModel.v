(** Model of the incomplete gamma function, eisvogel/core/impl/MathUtils.hxx:7-78.
    - Reals instead of floats.
    - [lg] is std::lgamma (an input; the theorems say what they need of it).
    - Loops run on fuel; [None]: the fuel did not suffice, a division by zero, or the exception (line 68; a bare throw, which ends the program). *)
From Coq Require Import Reals Lra.
Local Open Scope R_scope.

Section model.
Context (lg : R -> R).

Definition odiv (x y : R) : option R := if Req_EM_T y 0 then None else Some (x / y).

(** exp(a * log(z) - b): log(0) is minus infinity and its exponential is zero (for positive [a], finite [b]). *)
Definition exp_log (a z b : R) : R := if Req_EM_T z 0 then 0 else exp (a * ln z - b).

(** The do-while loop of incomplete_gamma_series_expansion, lines 13-18; one turn per unit of fuel.  Returns accum. *)
Fixpoint series_loop (fuel : nat) (z tol C accum den : R) : option R :=
  match fuel with
  | O => None
  | S fuel =>
    let den := den + 1 in
    match odiv z den with
    | None => None
    | Some q =>
      let C := C * q in
      let accum := accum + C in
      match odiv C accum with
      | None => None
      | Some x => if Rlt_dec tol x then series_loop fuel z tol C accum den else Some accum
      end
    end
  end.
(** incomplete_gamma_series_expansion, lines 7-21. *)
Definition series_expansion (fuel : nat) (a z tol : R) : option R :=
  match series_loop fuel z tol 1 1 a with
  | None => None
  | Some accum => Some (exp (lg a) * (1 - exp_log a z (lg (a + 1) + z) * accum))
  end.

(** The loop of incomplete_gamma_continued_fraction, lines 37-59. *)
Fixpoint fraction_loop (fuel : nat) (a tol : R) (An2 An1 Bn2 Bn1 an bn : R) (n : nat) (contfrac : R) : option R :=
  match fuel with
  | O => None
  | S fuel =>
    let An := bn * An1 + an * An2 in
    let Bn := bn * Bn1 + an * Bn2 in
    match odiv An Bn with
    | None => None
    | Some next =>
      match odiv (Rabs (next - contfrac)) next with
      | None => None
      | Some err => if Rlt_dec err tol then Some next else fraction_loop fuel a tol An1 An Bn1 Bn (an + (a - 2 * INR n - 1)) (bn + 2) (n + 1) next
      end
    end
  end.
(** incomplete_gamma_continued_fraction, lines 24-62. *)
Definition continued_fraction (fuel : nat) (a z tol : R) : option R :=
  match fraction_loop fuel a tol 0 1 1 (z - a + 1) (a - 1) (z - a + 1 + 2) 1 0 with
  | None => None
  | Some contfrac => Some (exp_log a z z * contfrac)
  end.

(** incomplete_gamma, lines 64-77. *)
Definition incomplete_gamma (fuel : nat) (a z tol : R) : option R :=
  if Rlt_dec a 0 then None else if Rlt_dec z 0 then None else
  if Rle_dec z 1 then series_expansion fuel a z tol else
  if Rlt_dec z a then series_expansion fuel a z tol else
  continued_fraction fuel a z tol.
End model.
