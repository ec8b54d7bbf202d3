(** Model of the callers of CylindricalGreensFunction::apply_accumulate: SignalCalculator::AccumulateSignal (eisvogel/core/impl/SignalCalculator.hxx:12-15),
    C8SignalCalculator::calculate (extern/corsika/impl/C8SignalCalculator.hxx:23-32), and the loop over the tracks of a shower of
    examples/shower_profile/02calculate_shower_emission.cpp:57-79. *)
From stdpp Require Import base list list_numbers numbers option.
From Coq Require Import Reals NArith ZArith.
From Verif Require Import NDArrayModel KernelModel ChunkCacheModel LibraryModel SignalModel ReadModel ShowerModel.
Local Open Scope R_scope.

Section model.
Context (junk : N) (start interval : R * R * R).

(** AccumulateSignal: the kernel is Keys; the defaults of GreensFunction.hh:77-78 are to fail outside of the Green's function and the weight one.  The block sizes are those of GreensFunction.hxx:235-236. *)
Definition accumulate_signal (seg : segment) (t0 samp : R) (num : nat) (signal : list R) (l : clib) : res (list R * clib) :=
  apply_accumulate_on junk start interval 100 100 keys false seg t0 samp num 1 signal l.

(** calculate: the tracks are given as arrays (x, y, z, t); the kernel is Linear, and what is outside of the Green's function is ignored. *)
Definition c8_calculate (track_start track_end : R * R * R * R) (charge t0 samp : R) (num : nat) (signal : list R) (weight : R) (l : clib) : res (list R * clib) :=
  let '(x0, y0, z0, s0) := track_start in let '(x1, y1, z1, s1) := track_end in
  apply_accumulate_on junk start interval 100 100 linear true (Segment (x0, y0, z0) (x1, y1, z1) s0 s1 charge) t0 samp num weight signal l.

(** The loop over the tracks, 63-75. *)
Definition accumulate_tracks (tracks : list segment) (t0 samp : R) (num : nat) (signal : list R) (l : clib) : res (list R * clib) :=
  rfold (fun '(signal, l) seg => accumulate_signal seg t0 samp num signal l) (signal, l) tracks.

(** The example, 57-79: the tracks of the shower in steps of [dt]; the whole loop is done twice. *)
Definition shower_emission (density : R -> R -> R -> R) (h : shower) (dt t0 samp : R) (num : nat) (l : clib) : res (list R * clib) :=
  tracks ← of_opt (fill_tracks density h dt []);
  '(signal, l) ← accumulate_tracks tracks t0 samp num (replicate num 0) l;
  accumulate_tracks tracks t0 samp num signal l.
End model.
