(** Specification of the signals computed from the stored field of the analytic calculator (C65). *)
From Coq Require Import Reals ZArith NArith List.
From Verif Require Import SignalProps AnalyticSpec ReadModel ReadAnalytic DipoleSpec StoredSpec.
Local Open Scope R_scope.

(** A bound on the field at distances of at least [r_min] until the time [T] (not before the peaking time), with the tolerance of the incomplete gamma function. *)
Definition largest_field (n : nat) (tp eta r_min T : R) : R :=
  let c := (INR n / tp) ^ S n / INR (fact n) * T ^ n in
  (2 * (1 + 1 / 1000000 * (INR n + 2)) / r_min ^ 3 + 2 * eta * c / r_min ^ 2 + eta ^ 2 * c * (INR n / tp) / r_min) / (4 * PI * eta ^ 2).

Section spec.
Context (n : nat) (tp eta r_min ar az br bz t_end : R) (nr nz nt : nat).
(** The index stands for a position that is not too close to the dipole, or is outside of the grid. *)
Definition away (r z t : Z) : Prop := (Z.abs r <= Z.of_nat nr)%Z -> (0 <= z <= Z.of_nat nz)%Z -> (0 <= t <= Z.of_nat nt)%Z ->
  r_min <= sqrt (coord ar br nr (Z.abs r) ^ 2 + coord az bz nz z ^ 2).
(** [g] are the numbers of the samples of the dipole field, mirrored at the first radius, zero outside of the grid. *)
Definition dipole_samples (g : Z -> Z -> Z -> nat -> R) : Prop :=
  (forall r z t, (Z.abs r <= Z.of_nat nr)%Z -> (0 <= z <= Z.of_nat nz)%Z -> (0 <= t <= Z.of_nat nt)%Z ->
    exists w0 w1, dipole_sample n tp eta r_min (coord ar br nr (Z.abs r)) (coord az bz nz z) (coord 0 t_end nt t) (w0 :: w1 :: nil) /\ g r z t 0%nat = float_value w0 /\ g r z t 1%nat = float_value w1) /\
  (forall r z t i, ~ ((Z.abs r <= Z.of_nat nr)%Z /\ (0 <= z <= Z.of_nat nz)%Z /\ (0 <= t <= Z.of_nat nt)%Z) -> g r z t i = 0).
End spec.
