(** Specification of an exported signal (C73): reading a file of comma-separated decimal numbers. *)
From Coq Require Import Reals ZArith Bool List Ascii.
From Flocq Require Import Core IEEE754.BinarySingleNaN.
From Verif Require Import AntennaModel.
Import ListNotations.

Notation text := (list ascii).
Definition ten : radix := Build_radix 10 eq_refl.
Definition digit_value (c : ascii) : option Z := let n := Z.of_N (N_of_ascii c) in if ((48 <=? n) && (n <=? 57))%Z then Some (n - 48)%Z else None.
(** The digits at the beginning, after the number [acc]; what follows. *)
Fixpoint read_digits (acc : Z) (s : text) : Z * text :=
  match s with
  | c :: s' => match digit_value c with Some d => read_digits (10 * acc + d)%Z s' | None => (acc, s) end
  | [] => (acc, [])
  end.
Definition read_sign (s : text) : Z * text := match s with c :: s' => if Ascii.eqb c "-" then ((-1)%Z, s') else (1%Z, s) | [] => (1%Z, []) end.
Definition read_exponent (s : text) : option Z :=
  match s with
  | [] => Some 0%Z
  | c :: s' => if Ascii.eqb c "e" then
      match s' with
      | d :: s2 => let '(x, rest) := read_digits 0 s2 in
          match rest with [] => if Ascii.eqb d "+" then Some x else if Ascii.eqb d "-" then Some (- x)%Z else None | _ => None end
      | [] => None
      end
    else None
  end.
(** A number as a sign, digits, a point, digits and possibly an exponent. *)
Definition read_number (s : text) : option R :=
  let '(sign, s1) := read_sign s in
  let '(i, s2) := read_digits 0 s1 in
  match s2 with
  | c :: s3 => if Ascii.eqb c "." then
      let '(m, s4) := read_digits i s3 in
      match read_exponent s4 with Some x => Some (IZR (sign * m) * bpow ten (x - Z.of_nat (length s3 - length s4)))%R | None => None end
    else None
  | [] => None
  end.
(** The part before the first [c] and the part after it. *)
Fixpoint split_at (c : ascii) (s : text) : option (text * text) :=
  match s with
  | [] => None
  | d :: s' => if Ascii.eqb d c then Some ([], s') else match split_at c s' with Some (a, b) => Some (d :: a, b) | None => None end
  end.
Definition skip_space (s : text) : text := match s with c :: s' => if Ascii.eqb c " " then s' else s | [] => [] end.
Definition read_row (s : text) : option (R * R) :=
  match split_at "," s with
  | Some (a, b) => match read_number a, read_number (skip_space b) with Some x, Some y => Some (x, y) | _, _ => None end
  | None => None
  end.
(** The lines of a file, each ended by a newline. *)
Fixpoint read_rows (fuel : nat) (s : text) : option (list (R * R)) :=
  match s, fuel with
  | [], _ => Some []
  | _, O => None
  | _, S fuel =>
      match split_at (ascii_of_N 10) s with
      | Some (l, rest) => match read_row l, read_rows fuel rest with Some r, Some rs => Some (r :: rs) | _, _ => None end
      | None => None
      end
  end.
(** What a row of the file must say about a time and a value. *)
Definition row_says (tp vp : nat) (t v : f32) (r : R * R) : Prop :=
  (Rabs (fst r - B2R t) <= bpow ten (- Z.of_nat tp) / 2 /\ Rabs (snd r - B2R v) <= Rabs (B2R v) * bpow ten (- Z.of_nat vp) / 2)%R.
