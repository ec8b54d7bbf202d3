(** Specification of the Green's function that the MEEP calculator leaves, as it is read (C70). *)
From stdpp Require Import base list list_numbers numbers option.
From Coq Require Import Reals NArith ZArith.
From Flocq Require Import IEEE754.Binary IEEE754.Bits.
From Verif Require Import KernelModel SignalModel SignalProps InterpProps CalculateSpec CoordsModel ChunkCacheSpec ReadModel RebuildSpec ReadSpec.
Local Open Scope R_scope.

(** No infinity and no NaN among the components. *)
Definition finite_value (v : list N) : Prop := Forall (fun b => is_finite 24 128 (b32_of_bits (Z.of_N b)) = true) v.

Section samples.
Context (cz cr sz sr nz nr d : N) (ov T : nat) (kept : nat -> list N -> list N).
(** The cell (z, r) in the calculated domain of the sample with index [r], [z]. *)
Definition cell_of (r z : Z) : list N := [Z.to_N (Z.of_N sz + z * Z.of_N d); Z.to_N (Z.of_N sr + r * Z.of_N d)].
(** There is a sample with this index: in the storage domain or among the samples that were calculated around it. *)
Definition sample_at (r z t : Z) : Prop :=
  ((- Z.of_N (br sr d ov) <= r < Z.of_N (samples nr d + ar cr sr nr d ov)) /\ (- Z.of_N (bz sz d ov) <= z < Z.of_N (samples nz d + az cz sz nz d ov)) /\ 0 <= t < Z.of_nat T)%Z.
(** The samples before the first radius are opposite to those behind it. *)
Definition opposite (r : Z) : Z := if (r <? - Z.of_N (br sr d ov))%Z then (- 2 * Z.of_N (br sr d ov) - r)%Z else r.
Global Instance sample_at_dec r z t : Decision (sample_at r z t) := _.
(** The samples as real numbers; zero where there are none. *)
Definition green_samples (r z t : Z) (i : nat) : R :=
  if decide (sample_at (opposite r) z t) then float_value (kept (Z.to_nat t) (cell_of (opposite r) z) !!! i) else 0.
(** The value that is read at this index is known: not before the first radius, or opposite to a sample. *)
Definition known (r z t : Z) : Prop := (- Z.of_N (br sr d ov) <= r)%Z \/ sample_at (opposite r) z t.

End samples.

Section region.
Context (geom : cylinder) (rho t_end : R) (sz sr nz nr d : N) (ov T : nat) (kept : nat -> list N -> list N).
(** The first coordinates, the last ones, and the distance of the samples. *)
Definition green_start : R * R * R := (INR (N.to_nat sr) / rho + rmin geom, INR (N.to_nat sz) / rho + zmin geom, 0).
Definition green_end : R * R * R := (INR (N.to_nat (sr + nr)) / rho + rmin geom, INR (N.to_nat (sz + nz)) / rho + zmin geom, t_end).
Definition green_step : R * R * R :=
  ((green_end.1.1 - green_start.1.1) / INR (N.to_nat (samples nr d) - 1), (green_end.1.2 - green_start.1.2) / INR (N.to_nat (samples nz d) - 1), (t_end - 0) / INR (T - 1)).
Local Notation G := (coords green_start green_step).

(** The track, in [n] steps of at most one, can be seen for all delays at which it is needed: it is inside of the coordinates of the Green's function; if the overlap is just what the kernel needs,
    then no delay is that of a sample; with the cubic kernel it is at least a step away from the first radius, or a step inside in height and delay, or there are samples before
    the first radius; and the samples in whose cells it is are not null. *)
Definition in_green (K : kernel) (t0 samp : R) (num : nat) (seg : segment) (n : nat) : Prop :=
  s_t0 seg < s_t1 seg /\ INR n - 1 < s_t1 seg - s_t0 seg <= INR n /\
  (forall p, (p <= n)%nat -> - (2 ^ 31) <= (time_at seg n p - t0) / samp <= 2 ^ 31 - 1) /\
  forall p j, (p <= n)%nat -> (j < num)%nat -> time_at seg n p <= t0 + INR j * samp ->
    let r := radius (along seg n p) in let z := (along seg n p).2 in let s := t0 + INR j * samp - time_at seg n p in
    green_start.1.1 <= r <= green_end.1.1 /\ green_start.1.2 <= z <= green_end.1.2 /\ s <= t_end /\
    ((k_support K < ov)%nat \/ forall k, (0 < k <= T - 1)%nat -> s <> INR k * green_step.2) /\
    (k_support K = 1%nat \/ (0 < br sr d ov)%N \/ green_start.1.1 + green_step.1.1 <= r \/
      (green_start.1.2 + green_step.1.2 <= z < green_end.1.2 - green_step.1.2 /\ green_step.2 <= s < t_end - green_step.2)) /\
    (forall i1 i2 i3, cell (ind_r G seg n p) i1 -> cell (ind_z G seg n p) i2 -> cell (ind_t G s) i3 -> ~ null_vector (kept i3 [sz + N.of_nat i2 * d; sr + N.of_nat i1 * d]%N)).
End region.
