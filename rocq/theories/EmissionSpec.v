(** Specification of the signal of several tracks (C69). *)
From stdpp Require Import base list list_numbers numbers option.
From Coq Require Import Reals NArith ZArith.
From Verif Require Import KernelModel ChunkCacheSpec LibrarySpec RebuildSpec SignalModel SignalProps ReadSpec.
Local Open Scope R_scope.

Section spec.
Context (start interval : R * R * R) (S : lstate) (K : kernel) (U : Z -> Z -> Z -> Prop) (g : Z -> Z -> Z -> nat -> R) (ignore : bool).
Local Notation G := (coords start interval).
(** The track (which is integrated in [n] steps of at most 1) can be seen in the Green's function: every delay that is needed, until the end of the signal,
    is in a chunk; or all that follow are in null chunks, or outside where the field is zero if this is to be ignored. *)
Definition seen (t0 samp : R) (num : nat) (seg : segment) (n : nat) : Prop :=
  s_t0 seg < s_t1 seg /\ INR n - 1 < s_t1 seg - s_t0 seg <= INR n /\
  (forall p, (p <= n)%nat -> - (2 ^ 31) <= (time_at seg n p - t0) / samp <= 2 ^ 31 - 1) /\
  forall p j, (p <= n)%nat -> (j < num)%nat -> time_at seg n p <= t0 + INR j * samp ->
    let at_ k := ind_t G (t0 + INR k * samp - time_at seg n p) in let r := ind_r G seg n p in let z := ind_z G seg n p in
    uses K U r z (at_ j) /\ off_ends S K (at_ j) /\
    (served S r z (at_ j) \/
     forall k, (j <= k < num)%nat -> null_at S r z (at_ k) \/ (ignore = true /\ outside S r z (at_ k) /\ grid_field K g r z (at_ k) = (0, 0))).
(** The sum of the signals of the tracks at time [t]. *)
Definition total (weight t : R) (tracks : list (segment * nat)) : R :=
  foldr (fun sn a => direct_sum G (grid_field K g) sn.1 sn.2 weight t + a) 0 tracks.
(** The numbers [f t] at the sampling times added to a signal. *)
Definition plus_samples (t0 samp : R) (num : nat) (f : R -> R) (signal : list R) : list R :=
  imap (fun j y => y + if (j <? num)%nat then f (t0 + INR j * samp) else 0) signal.
End spec.
