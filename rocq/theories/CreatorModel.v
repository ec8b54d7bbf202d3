(** Model of ShowerCreator, extern/shower_profile/shower_creator/shower_creator.cpp: the constructor (14-43), create_shower (47-82), read_shower (84-99).
    fread copies bytes to the memory of a little-endian host.  Reals instead of doubles; a file with infinities or NaNs is not modelled ([None]),
    nor is one that ends in the middle of an entry.  [None] is also undefined behaviour (an element that a vector does not have, division by zero) and the exception of a negative resize. *)
From stdpp Require Import base list list_numbers numbers option.
From Coq Require Import Reals ZArith NArith.
From Flocq Require Import IEEE754.Binary IEEE754.Bits.
From Verif Require Import NDArrayModel CodecModel ShowerModel.
Local Open Scope R_scope.

(** The double with the bits [b]. *)
Definition double_value (b : N) : R := B2R 53 1024 (b64_of_bits (Z.of_N b)).
Definition double_of (b : N) : option R := if is_finite 53 1024 (b64_of_bits (Z.of_N b)) then Some (double_value b) else None.

(** fread of [n] doubles. *)
Fixpoint read_doubles (n : nat) (s : bytes) : option (list R * bytes) :=
  match n with
  | O => Some ([], s)
  | S n => '(b, s) ← read_bytes 8 s; x ← double_of (of_le b); '(xs, s) ← read_doubles n s; Some (x :: xs, s)
  end.

(** read_shower, 84-99.  [Some None] if it returns 1 (nothing was assigned), otherwise hadronic, E, the profile and the rest of the file. *)
Definition read_shower (s : bytes) : option (option (Z * R * profile * bytes)) :=
  match read_bytes 4 s with
  | None => Some None
  | Some (b, s) =>
    let n := of_le b in
    '(b, s) ← read_bytes 4 s;
    let had := (if (of_le b <? 2 ^ 31)%N then Z.of_N (of_le b) else Z.of_N (of_le b) - 2 ^ 32)%Z in
    '(b, s) ← read_bytes 8 s;
    e ← double_of (of_le b);
    if (n <? 2 ^ 31)%N then
      '(gs, s) ← read_doubles (N.to_nat n) s;
      '(qs, s) ← read_doubles (N.to_nat n) s;
      Some (Some (had, e, Profile ((fun g => g * kilogram / (1 * 1)) <$> gs) qs, s))
    else None
  end.

(** ce_profiles and stored_energies, shower_creator.h:36-37: a std::map that has no entry is [None], a missing vector of energies is empty. *)
Record creator := Creator { c_profiles : Z -> R -> option (list profile); c_energies : Z -> list R }.
Definition no_profiles : creator := Creator (fun _ _ => None) (fun _ => []).

(** 35-40 *)
Definition register (had : Z) (e : R) (p : profile) (st : creator) : creator :=
  let here h x := bool_decide (h = had) && (if Req_EM_T x e then true else false) in
  let st := match c_profiles st had e with
    | None => Creator (fun h x => if here h x then Some [] else c_profiles st h x)
                      (fun h => if bool_decide (h = had) then c_energies st h ++ [e] else c_energies st h)
    | Some _ => st
    end in
  Creator (fun h x => if here h x then Some (default [] (c_profiles st h x) ++ [p]) else c_profiles st h x) (c_energies st).

(** The loop of the constructor, 25-41.  In the last turn nothing is read, but the profile is registered all the same; its members hadronic and energy were never assigned:
    [jh] and [je] are what happens to be in the memory.  [fuel] bounds the number of entries. *)
Fixpoint construct_loop (jh : Z) (je : R) (fuel : nat) (s : bytes) (st : creator) : option creator :=
  r ← read_shower s;
  match r with
  | None => Some (register jh je (Profile [] []) st)
  | Some (had, e, p, s) => match fuel with O => None | S fuel => construct_loop jh je fuel s (register had e p st) end
  end.
(** The constructor, 14-43, for an existing file. *)
Definition construct (jh : Z) (je : R) (file : bytes) : option creator := construct_loop jh je (length file) file no_profiles.

(** The loop of 57-62: closest_energy and energy_diff. *)
Definition closest_step (en : R) (st : R * R) (e : R) : R * R := if Rlt_dec (Rabs (en - e)) st.2 then (e, Rabs (en - e)) else st.
(** create_shower, 47-82.  shower_index (63-71) is not used. *)
Definition create_shower (st : creator) (pos : R * R * R) (en zen az : R) (had i_shower : Z) : option shower :=
  e0 ← c_energies st had !! 0%nat;
  let closest := (foldl (closest_step en) (e0, Rabs (en - e0)) (drop 1 (c_energies st had))).1 in
  p ← (if (i_shower <? 0)%Z then None else default [] (c_profiles st had closest) !! Z.to_nat i_shower);
  if Req_EM_T closest 0 then None else
  Some (Shower pos zen az p (en / closest)).
