(** Specification of the sampling of a Green's function on a regular grid (C61). *)
From stdpp Require Import base sets list list_numbers numbers option.
From Coq Require Import Reals ZArith.
From Verif Require Import NDArrayModel NDArrayProps IndexSpec KernelModel InterpModel BBoxModel ChunkMetaModel ChunkMetaProps SignalModel SignalProps.
Local Open Scope R_scope.

(** The position of sample [o] of [n] samples from [a] to [b], both included. *)
Definition sample_pos (a b : R) (n o : nat) : R := a + INR o / (INR n - 1) * (b - a).
(** In units of the sampling interval [d] of the stored field, counted from its first sample at [s]. *)
Definition index_pos (s d x : R) : R := (x - s) / d.

(** The chunk [m] of the library holds the samples [g]; it has more overlap than the kernel needs. *)
Definition held (G : green) (K : kernel) (g : Z -> Z -> Z -> nat -> R) (m : chunk_meta) : Prop :=
  exists ty path id s1 s2 s3 n1 n2 n3 ov, m = mk_meta ty path id [s1; s2; s3] [n1; n2; n3] ov /\
    fits [s1; s2; s3] [n1; n2; n3] ov /\ (k_support K < N.to_nat ov)%nat /\ (ov < 2 ^ 64)%N /\ (0 < n1 /\ 0 < n2 /\ 0 < n3)%N /\
    (ty = specified /\ (exists data, g_data G m = Some data /\ stores (needed K) g [s1; s2; s3] [n1; n2; n3] ov data) \/
     ty = all_null /\ forall j1 j2 j3 c, let near j s n := (Z.of_N s - Z.of_N ov <= j < Z.of_N s + Z.of_N n + Z.of_N ov)%Z in
       near j1 s1 n1 -> near j2 s2 n2 -> near j3 s3 n3 -> needed K j1 j2 j3 -> g j1 j2 j3 c = 0).

(** The position is in the chunk or on its far faces. *)
Definition within (m : chunk_meta) (r z t : R) : Prop :=
  exists s1 s2 s3 e1 e2 e3, cm_start m = [s1; s2; s3] /\ cm_end m = [e1; e2; e3] /\
    INR (N.to_nat s1) <= r <= INR (N.to_nat e1) /\ INR (N.to_nat s2) <= z <= INR (N.to_nat e2) /\ INR (N.to_nat s3) <= t <= INR (N.to_nat e3).

(** What the range query of the index returns: the chunks that begin before [e] and end after [s], along every axis (C19). *)
Definition in_query (s e : list N) (m : chunk_meta) : Prop := Forall2 N.lt (cm_start m) e /\ Forall2 N.lt s (cm_end m).
Definition queried (cs : list chunk_meta) (search : list N -> list N -> list chunk_meta) (s e : list N) : Prop :=
  forall m, m ∈ search s e <-> m ∈ cs /\ in_query s e m.

(** The truncated index. *)
Definition trunc (x : R) : N := Z.to_N (Int_part x).

Section spec.
Context (G : green) (m_end : R * R * R) (cs : list chunk_meta) (search : list N -> list N -> list chunk_meta) (K : kernel) (g : Z -> Z -> Z -> nat -> R)
  (p q : R * R * R) (n : nat * nat * nat).
Definition at_r : R -> R := index_pos (g_start G).1.1 (g_interval G).1.1.
Definition at_z : R -> R := index_pos (g_start G).1.2 (g_interval G).1.2.
Definition at_t : R -> R := index_pos (g_start G).2 (g_interval G).2.
Definition first_ind : list N := [trunc (at_r p.1.1); trunc (at_z p.1.2); trunc (at_t p.2)].
Definition last_ind : list N := [trunc (at_r q.1.1); trunc (at_z q.1.2); trunc (at_t q.2)].
(** Index position of sample [o] along the axes. *)
Definition sample_r (o : nat) : R := at_r (sample_pos p.1.1 q.1.1 n.1.1 o).
Definition sample_z (o : nat) : R := at_z (sample_pos p.1.2 q.1.2 n.1.2 o).
Definition sample_t (o : nat) : R := at_t (sample_pos p.2 q.2 n.2 o).

Record ok_fill : Prop := {
  of_kernel : K = linear \/ K = keys;
  of_interval : 0 < (g_interval G).1.1 /\ 0 < (g_interval G).1.2 /\ 0 < (g_interval G).2;
  of_range : (g_start G).1.1 <= p.1.1 /\ p.1.1 < q.1.1 /\ q.1.1 <= m_end.1.1 /\ (g_start G).1.2 <= p.1.2 /\ p.1.2 < q.1.2 /\ q.1.2 <= m_end.1.2 /\
             (g_start G).2 <= p.2 /\ p.2 < q.2 /\ q.2 <= m_end.2;
  of_num : (2 <= n.1.1 /\ 2 <= n.1.2 /\ 2 <= n.2)%nat;
  of_chunks : forall m, m ∈ cs -> held G K g m;
  of_search : queried cs search first_ind last_ind }.

(** The sample at the position is determined by a chunk that the query returns. *)
Definition seen (r z t : R) : Prop := exists m, m ∈ cs /\ in_query first_ind last_ind m /\ cm_type m = specified /\ within m r z t.

(** The chunks cover the requested range. *)
Definition range_covered : Prop :=
  forall i1 i2 i3, (trunc (at_r p.1.1) <= i1 /\ trunc (at_z p.1.2) <= i2 /\ trunc (at_t p.2) <= i3)%N ->
    INR (N.to_nat i1) < at_r q.1.1 -> INR (N.to_nat i2) < at_z q.1.2 -> INR (N.to_nat i3) < at_t q.2 ->
    exists m, m ∈ cs /\ Forall2 N.le (cm_start m) [i1; i2; i3] /\ Forall2 N.lt [i1; i2; i3] (cm_end m).
(** No chunk begins at the truncated end of the range, unless the range ends exactly there. *)
Definition end_not_cut : Prop :=
  forall m s1 s2 s3, m ∈ cs -> cm_start m = [s1; s2; s3] ->
    (s1 <> trunc (at_r q.1.1) \/ at_r q.1.1 = INR (N.to_nat (trunc (at_r q.1.1)))) /\
    (s2 <> trunc (at_z q.1.2) \/ at_z q.1.2 = INR (N.to_nat (trunc (at_z q.1.2)))) /\
    (s3 <> trunc (at_t q.2) \/ at_t q.2 = INR (N.to_nat (trunc (at_t q.2)))).
End spec.
