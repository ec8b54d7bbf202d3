(** Specification of the library of showers (C68). *)
From stdpp Require Import base list list_numbers numbers option.
From Coq Require Import Reals ZArith NArith.
From Flocq Require Import IEEE754.Binary IEEE754.Bits.
From Verif Require Import CodecModel ShowerModel CreatorModel.
Local Open Scope R_scope.

(** An entry of the file; energies, depths and charges are the bits of doubles. *)
Record entry := Entry { e_hadronic : N; e_energy : N; e_depths : list N; e_charges : list N }.
(** The file format: write_shower of extern/shower_profile/convert_shower_profile.py:20-25. *)
Definition write_entry (e : entry) : bytes :=
  to_le 4 (N.of_nat (length (e_depths e))) ++ to_le 4 (e_hadronic e) ++ to_le 8 (e_energy e) ++ mjoin (to_le 8 <$> e_depths e) ++ mjoin (to_le 8 <$> e_charges e).

Definition finite_double (b : N) : Prop := (b < 2 ^ 64)%N /\ is_finite 53 1024 (b64_of_bits (Z.of_N b)) = true.
Record good_entry (e : entry) : Prop := {
  ge_length : length (e_charges e) = length (e_depths e);
  ge_size : (N.of_nat (length (e_depths e)) < 2 ^ 31)%N;
  ge_hadronic : (e_hadronic e < 2 ^ 31)%N;
  ge_energy : finite_double (e_energy e);
  ge_depths : Forall finite_double (e_depths e);
  ge_charges : Forall finite_double (e_charges e) }.

(** The profile, with the depths in the units of the program (they are kg/m^2 in the file), and what it is filed under. *)
Definition profile_of (e : entry) : profile := Profile ((fun g => double_value g * kilogram) <$> e_depths e) (double_value <$> e_charges e).
Definition filed (had : Z) (x : R) (e : entry) : bool := bool_decide (Z.of_N (e_hadronic e) = had) && (if Req_EM_T (double_value (e_energy e)) x then true else false).
(** The entries of an energy, in the order of the file. *)
Definition entries_of (had : Z) (x : R) (es : list entry) : list entry := List.filter (filed had x) es.
