(** Proofs for C67. *)
From stdpp Require Import base list list_numbers numbers option.
From Coq Require Import Reals Lra Lia ZArith.
From Verif Require Import NDArrayModel NDArrayProofs SignalModel ShowerModel ShowerSpec.
Local Open Scope R_scope.

Lemma light_pos : 0 < speed_of_light. Proof. unfold speed_of_light. lra. Qed.
Lemma assign_eq i x l : (i < length l)%nat -> assign i x l = Some (<[i := x]> l).
Proof. intros H. unfold assign. by rewrite (proj2 (Nat.ltb_lt _ _) H). Qed.
Lemma assign_none i x l : (length l <= i)%nat -> assign i x l = None.
Proof. intros H. unfold assign. by rewrite (proj2 (Nat.ltb_ge _ _) H). Qed.

Lemma skip_spec l g : (skip_below l g <= length l)%nat /\ (forall j x, (j < skip_below l g)%nat -> l !! j = Some x -> x < g) /\
  (forall x, l !! skip_below l g = Some x -> g <= x).
Proof.
  induction l as [|a l IH]; cbn [skip_below]; [split; [cbn; lia|]; split; [intros; lia|done]|].
  destruct (Rlt_dec a g) as [Ha|Ha].
  - destruct IH as (H1 & H2 & H3). split; [cbn; lia|]. split; [|exact H3]. intros [|j] x Hj Hx; [by injection Hx as <-|]. apply (H2 j); [lia|done].
  - split; [cbn; lia|]. split; [intros; lia|]. intros x [= <-]. lra.
Qed.

Section proofs.
Context (density : R -> R -> R -> R) (h : shower) (dt : R).
Local Notation ds := (dt * speed_of_light).
Local Notation pt := (point h dt). Local Notation dep := (depth density h dt).
Local Notation pr := (h_profile h).

Lemma point_0 : pt 0 = h_start h.
Proof. unfold point. destruct (h_start h) as [[x y] z]. cbn [fst snd INR]. f_equal; [f_equal|]; ring. Qed.
Lemma next_x_point i : next_x h ds (pt i).1.1 = (pt (S i)).1.1.
Proof. unfold next_x, point, axis. cbn [fst snd]. rewrite S_INR. ring. Qed.
Lemma next_y_point i : next_y h ds (pt i).1.2 = (pt (S i)).1.2.
Proof. unfold next_y, point, axis. cbn [fst snd]. rewrite S_INR. ring. Qed.
Lemma next_z_point i : next_z h ds (pt i).2 = (pt (S i)).2.
Proof. unfold next_z, point, axis. cbn [fst snd]. rewrite S_INR. ring. Qed.

Lemma count_spec maxg n : maxg <= dep n -> (forall i, (i < n)%nat -> dep i < maxg) -> forall d k fuel, (k + d = n)%nat -> (d <= fuel)%nat ->
  count_points density h fuel ds maxg (dep k) (pt k).1.1 (pt k).1.2 (pt k).2 k = Some n.
Proof.
  intros Hn Hlt. induction d as [|d IH]; intros k fuel Hk Hf.
  - assert (k = n) as -> by lia. destruct fuel; cbn [count_points]; rewrite decide_False || destruct (Rlt_dec _ _); try lra; done.
  - destruct fuel as [|fuel]; [lia|]. cbn [count_points]. destruct (Rlt_dec _ _) as [_|Hc]; [|specialize (Hlt k ltac:(lia)); lra].
    rewrite next_x_point, next_y_point, next_z_point. apply (IH (S k)); lia.
Qed.
Lemma count_none maxg fuel : (forall i, (i <= fuel)%nat -> dep i < maxg) -> forall f k, (k + f = fuel)%nat ->
  count_points density h f ds maxg (dep k) (pt k).1.1 (pt k).1.2 (pt k).2 k = None.
Proof.
  intros Hlt. induction f as [|f IH]; intros k Hk; cbn [count_points]; destruct (Rlt_dec _ _) as [_|Hc]; try (specialize (Hlt k ltac:(lia)); lra); [done|].
  rewrite next_x_point, next_y_point, next_z_point. apply (IH (S k)); lia.
Qed.

(** After the entries below [m] are computed. *)
Record filled (n m : nat) (v : vectors) : Prop := {
  fi_len : length (v_t v) = n /\ length (v_x v) = n /\ length (v_y v) = n /\ length (v_z v) = n /\ length (v_ce v) = n;
  fi_t : forall j, (j < m)%nat -> v_t v !! j = Some (INR j * dt);
  fi_x : forall j, (j < m)%nat -> v_x v !! j = Some (pt j).1.1;
  fi_y : forall j, (j < m)%nat -> v_y v !! j = Some (pt j).1.2;
  fi_z : forall j, (j < m)%nat -> v_z v !! j = Some (pt j).2;
  fi_first : v_ce v !! 0%nat = p_charge pr !! 0%nat;
  fi_ce : forall j, (0 < j < m)%nat -> exists q, charge_at pr (dep j) q /\ v_ce v !! j = Some (q * h_scaling h) }.

Section points.
Context (n : nat) (maxg : R).
Hypothesis Hmax : p_grammage pr !! (length (p_grammage pr) - 1)%nat = Some maxg.
Hypothesis Hlen : length (p_charge pr) = length (p_grammage pr).
Hypothesis Hlt : forall i, (i < n)%nat -> dep i < maxg.
Hypothesis Hmono : forall i, (S i < n)%nat -> dep i <= dep (S i).

Lemma insert_at (l : list R) m x f : (m < length l)%nat -> (forall j, (j < m)%nat -> l !! j = Some (f j)) -> x = f m ->
  forall j, (j < S m)%nat -> <[m := x]> l !! j = Some (f j).
Proof.
  intros Hm Hl -> j Hj. destruct (decide (j = m)) as [->|]; [by apply list_lookup_insert|]. rewrite list_lookup_insert_ne by done. apply Hl. lia.
Qed.

Lemma step_spec m v gi : (0 < m < n)%nat -> filled n m v -> (gi <= length (p_grammage pr))%nat -> (forall j x, (j < gi)%nat -> p_grammage pr !! j = Some x -> x < dep (m - 1)) ->
  exists v' gi', shower_step density h dt ds (v, dep (m - 1), gi) m = Some (v', dep m, gi') /\ filled n (S m) v' /\ (gi' <= length (p_grammage pr))%nat /\
    (forall j x, (j < gi')%nat -> p_grammage pr !! j = Some x -> x < dep m).
Proof using All.
  intros Hm Hf Hgi Hbelow. destruct Hf as [(L1 & L2 & L3 & L4 & L5) Ft Fx Fy Fz F0 Fc]. unfold shower_step.
  rewrite Fx by lia. cbn [mbind option_bind]. rewrite assign_eq by lia. cbn [mbind option_bind]. rewrite next_x_point.
  rewrite Fy by lia. cbn [mbind option_bind]. rewrite assign_eq by lia. cbn [mbind option_bind]. rewrite next_y_point.
  rewrite Fz by lia. cbn [mbind option_bind]. rewrite assign_eq by lia. cbn [mbind option_bind]. rewrite next_z_point.
  rewrite Ft by lia. cbn [mbind option_bind]. rewrite assign_eq by lia. cbn [mbind option_bind].
  assert (S (m - 1) = m) as Em by lia. rewrite Em.
  replace (dep (m - 1) + ds * density (pt (m - 1)).1.1 (pt (m - 1)).1.2 (pt (m - 1)).2) with (dep m) by (rewrite <- Em at 1; cbn [depth]; ring).
  set (G := p_grammage pr) in *. set (k := skip_below (drop gi G) (dep m)). destruct (skip_spec (drop gi G) (dep m)) as (S1 & S2 & S3). fold k in S1, S2, S3. rewrite drop_length in S1.
  assert (dep (m - 1) <= dep m) as Hle. { rewrite <- Em at 2. apply Hmono. lia. }
  assert (forall j x, (j < gi + k)%nat -> G !! j = Some x -> x < dep m) as Hb2.
  { intros j x Hj Hx. destruct (decide (j < gi)%nat) as [Hj'|Hj']; [specialize (Hbelow j x Hj' Hx); lra|]. apply (S2 (j - gi)%nat); [lia|]. rewrite lookup_drop. by replace (gi + (j - gi))%nat with j by lia. }
  assert (gi + k < length G)%nat as Hin.
  { destruct (decide (gi + k < length G)%nat) as [|Hn]; [done|]. assert (maxg < dep m); [|specialize (Hlt m ltac:(lia)); lra].
    apply (Hb2 (length G - 1)%nat); [|done]. apply lookup_lt_Some in Hmax. lia. }
  assert (exists q, charge_at pr (dep m) q /\ interpolate_charge h (dep m) (gi + k) = Some (q * h_scaling h)) as (q & Hq & ->).
  { destruct (lookup_lt_is_Some_2 G (gi + k)) as [g1 Hg1]; [done|]. assert (dep m <= g1) as Hg1'. { apply S3. by rewrite lookup_drop. }
    unfold interpolate_charge. fold G. destruct (Nat.eqb_spec (gi + k) 0) as [E|E].
    - destruct (lookup_lt_is_Some_2 (p_charge pr) 0) as [q Hq]; [lia|]. exists q. rewrite Hq. split; [|done]. left. rewrite E in Hg1. by exists g1.
    - destruct (lookup_lt_is_Some_2 (p_charge pr) (gi + k)) as [q1 Hq1]; [lia|]. destruct (lookup_lt_is_Some_2 (p_charge pr) (gi + k - 1)) as [q0 Hq0]; [lia|].
      destruct (lookup_lt_is_Some_2 G (gi + k - 1)) as [g0 Hg0]; [lia|]. assert (g0 < dep m) as Hg0' by (apply (Hb2 (gi + k - 1)%nat); [lia|done]).
      rewrite Hq1, Hq0, Hg1, Hg0. cbn [mbind option_bind]. destruct (Req_EM_T _ _) as [E0|_]; [lra|]. eexists. split; [|reflexivity].
      right. exists (gi + k - 1)%nat, g0, g1, q0, q1. replace (S (gi + k - 1)) with (gi + k)%nat by lia. split_and!; try done. intros j x Hj. apply Hb2. lia. }
  cbn [mbind option_bind]. rewrite assign_eq by lia. cbn [mbind option_bind]. eexists _, _. split; [reflexivity|]. split; [|split; [lia|exact Hb2]].
  constructor; cbn [v_t v_x v_y v_z v_ce].
  - rewrite !insert_length. done.
  - apply (insert_at _ _ _ (fun j => INR j * dt)); [lia|done|]. rewrite <- Em at 2. rewrite S_INR. ring.
  - apply (insert_at _ _ _ (fun j => (pt j).1.1)); [lia|done..].
  - apply (insert_at _ _ _ (fun j => (pt j).1.2)); [lia|done..].
  - apply (insert_at _ _ _ (fun j => (pt j).2)); [lia|done..].
  - rewrite list_lookup_insert_ne by lia. done.
  - intros j Hj. destruct (decide (j = m)) as [->|]; [exists q; split; [done|]; apply list_lookup_insert; lia|]. rewrite list_lookup_insert_ne by done. apply Fc. lia.
Qed.

Lemma steps_spec v : (0 < n)%nat -> filled n 1 v -> forall d, (d < n)%nat ->
  exists v' gi, foldM (shower_step density h dt ds) (v, 0, 0%nat) (seq 1 d) = Some (v', dep d, gi) /\ filled n (S d) v' /\ (gi <= length (p_grammage pr))%nat /\
    (forall j x, (j < gi)%nat -> p_grammage pr !! j = Some x -> x < dep d).
Proof using All.
  intros Hn Hv. induction d as [|d IH]; intros Hd.
  - exists v, 0%nat. split; [done|]. split; [done|]. split; [lia|]. intros; lia.
  - destruct (IH ltac:(lia)) as (v1 & gi & H1 & H2 & H3 & H4). rewrite seq_S, foldM_app, H1. cbn [mbind option_bind foldM].
    destruct (step_spec (1 + d) v1 gi) as (v2 & gi2 & E & K1 & K2 & K3); [lia|done|done|by replace (1 + d - 1)%nat with d by lia|].
    replace (1 + d - 1)%nat with d in E by lia. rewrite E. cbn [mbind option_bind foldM]. exists v2, gi2. done.
Qed.

Lemma points_spec v q : (0 < n)%nat -> p_charge pr !! 0%nat = Some q -> exists v', get_points density h dt ds n v = Some v' /\ filled n n v'.
Proof using All.
  intros Hn Hq. unfold get_points. do 4 (rewrite assign_eq by (rewrite resize_length; lia); cbn [mbind option_bind]). rewrite Hq. cbn [mbind option_bind].
  rewrite assign_eq by (rewrite resize_length; lia). cbn [mbind option_bind].
  destruct (steps_spec (Vectors (<[0%nat := 0]> (resize n 0 (v_t v))) (<[0%nat := (h_start h).1.1]> (resize n 0 (v_x v))) (<[0%nat := (h_start h).1.2]> (resize n 0 (v_y v)))
    (<[0%nat := (h_start h).2]> (resize n 0 (v_z v))) (<[0%nat := q]> (resize n 0 (v_ce v)))) Hn) with (d := (n - 1)%nat) as (v' & gi & H1 & H2 & _).
  - constructor; cbn [v_t v_x v_y v_z v_ce].
    + by rewrite !insert_length, !resize_length.
    + intros j Hj. assert (j = 0%nat) as -> by lia. rewrite list_lookup_insert by (rewrite resize_length; lia). f_equal. cbn. ring.
    + intros j Hj. assert (j = 0%nat) as -> by lia. rewrite list_lookup_insert by (rewrite resize_length; lia). by rewrite point_0.
    + intros j Hj. assert (j = 0%nat) as -> by lia. rewrite list_lookup_insert by (rewrite resize_length; lia). by rewrite point_0.
    + intros j Hj. assert (j = 0%nat) as -> by lia. rewrite list_lookup_insert by (rewrite resize_length; lia). by rewrite point_0.
    + rewrite list_lookup_insert by (rewrite resize_length; lia). done.
    + intros; lia.
  - lia.
  - rewrite H1. cbn [mbind option_bind fst]. replace (S (n - 1)) with n in H2 by lia. by exists v'.
Qed.
End points.

(** The track between points [i] and [i] + 1. *)
Definition track_of (i : nat) (q : R) : segment := Segment (in_ns (pt i)) (in_ns (pt (S i))) (INR i * dt) (INR (S i) * dt) q.

Lemma tracks_spec n v out : filled n n v -> forall m, (m < n)%nat -> exists qs, length qs = m /\ (forall i, (i < m)%nat -> v_ce v !! i = qs !! i) /\
  foldM (add_track v) out (seq 0 m) = Some (out ++ imap track_of qs).
Proof.
  intros Hf. induction m as [|m IH]; intros Hm. { exists []. split; [done|]. split; [intros; lia|]. cbn. by rewrite app_nil_r. }
  destruct (IH ltac:(lia)) as (qs & Hq1 & Hq2 & E). rewrite seq_S, foldM_app, E. cbn [mbind option_bind foldM]. cbn [plus]. unfold add_track. destruct Hf as [(L1 & L2 & L3 & L4 & L5) Ft Fx Fy Fz F0 Fc].
  destruct (lookup_lt_is_Some_2 (v_ce v) m) as [q Hq]; [lia|]. exists (qs ++ [q]). split; [rewrite app_length; cbn; lia|]. split.
  { intros i Hi. destruct (decide (i = m)) as [->|]; [rewrite lookup_app_r, Hq1, Nat.sub_diag by lia; done|]. rewrite lookup_app_l by lia. apply Hq2. lia. }
  rewrite Fx, Fy, Fz by lia. cbn [mbind option_bind]. rewrite Fx, Fy, Fz by lia. cbn [mbind option_bind]. rewrite Ft by lia. cbn [mbind option_bind]. rewrite Ft by lia. cbn [mbind option_bind].
  rewrite Hq. cbn [mbind option_bind]. rewrite imap_app, Hq1. cbn [imap]. unfold track_of, in_ns. rewrite Nat.add_0_r, Nat.add_1_r, app_assoc. done.
Qed.
End proofs.
