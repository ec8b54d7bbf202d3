(** Model of the division of the re-chunking work among MPI jobs, get_partition_size and rechunk_mpi,
    eisvogel/meep/impl/MEEPCylindricalGreensFunctionCalculator.hxx:648-737.
    Shapes are lists of nat (size_t without wrap-around).  The single-precision arithmetic of the code is modelled
    exactly (Flocq: binary32, round to nearest even); overflow to infinity cannot happen for size_t operands. *)
From stdpp Require Import base list numbers option.
From Coq Require Import ZArith Reals.
From Flocq Require Import Core.
From Verif Require Import LoopsModel.

(** scalar_t is float, Common.hh:3. *)
Definition float32 (x : R) : R := round radix2 (FLT_exp (-149) 24) ZnearestE x.
Definition to_float (n : nat) : R := float32 (IZR (Z.of_nat n)).
(** VectorUtils::ceil_nonneg of a quotient of converted vectors, lines 662 and 671; Vector.hxx:132-143. *)
Definition fceil_div (a b : nat) : nat := Z.to_nat (Zceil (float32 (to_float a / to_float b))).

(** std::max_element: the first of the largest, line 654. *)
Fixpoint longest_axis_from (best bestv i : nat) (sh : list nat) : nat :=
  match sh with
  | [] => best
  | s :: sh' => if (bestv <? s)%nat then longest_axis_from i s (S i) sh' else longest_axis_from best bestv (S i) sh'
  end.
Definition longest_axis (sh : list nat) : nat :=
  match sh with [] => 0%nat | s :: sh' => longest_axis_from 0 s 1 sh' end.

(** number_partitions_actual, lines 656-658: a product of ints; [None] = signed overflow.  All factors are at least 1,
    so no partial product, in whatever order std::reduce multiplies, exceeds the full one. *)
Definition number_partitions (pars : list nat) : option Z :=
  let p := foldr Z.mul 1%Z (Z.of_nat <$> pars) in if (p <? 2 ^ 31)%Z then Some p else None.

(** The while loop, lines 667-669. *)
Fixpoint grow_partitions (fuel : nat) (axis requested : nat) (pars : list nat) : option (list nat) :=
  n ← number_partitions pars;
  if (n <? Z.of_nat requested)%Z then
    match fuel with O => None | S f => grow_partitions f axis requested (alter S axis pars) end
  else Some pars.

(** get_partition_size, lines 648-675.  [p0] is the result of the library call in line 665,
    (std::size_t)std::pow((scalar_t)number_partitions_requested, 1.0 / dims). *)
Definition get_partition_size (fuel p0 : nat) (shape chunk_size : list nat) (requested : nat) : option (list nat) :=
  let chunks_per_dim := zip_with fceil_div shape chunk_size in
  pars ← grow_partitions fuel (longest_axis shape) requested (replicate (length shape) p0);
  let par_size_in_chunks := zip_with fceil_div chunks_per_dim pars in
  Some (zip_with Nat.mul par_size_in_chunks chunk_size).

(** The worker of rechunk_mpi, lines 702-722: the partitions handled by job [id], with the start index of the output;
    [num] is num_rechunking.  (All jobs are also told all output directories, line 706.) *)
Fixpoint assigned (njobs id num : nat) (parts : list (list nat * list nat)) : list (list nat * list nat) :=
  match parts with
  | [] => []
  | c :: parts' => (if (num mod njobs =? id)%nat then [c] else []) ++ assigned njobs id (S num) parts'
  end.

(** rechunk_mpi, lines 677-727: the calls RebuildChunksPartial(partition_start, partition_end,
    partition_start - rechunk_start, ...) made by job [id]. *)
Definition rechunk_job (fuel p0 : nat) (shape pre post chunk_size : list nat) (njobs id : nat)
  : option (list (list nat * list nat * list nat)) :=
  let start := pre in
  let rshape := zip_with Nat.sub (zip_with Nat.sub shape pre) post in
  let e := zip_with Nat.add start rshape in
  psize ← get_partition_size fuel p0 rshape chunk_size njobs;
  parts ← chunk_loop fuel start e psize;
  Some ((fun c => (c, zip_with Nat.sub c.1 start)) <$> assigned njobs id 0 parts).
