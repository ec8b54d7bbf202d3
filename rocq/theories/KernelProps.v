(** C40 (quadrature weights) and C41 (interpolation kernels). *)
From stdpp Require Import base list list_numbers numbers option.
From Coq Require Import Reals Lra Lia.
From Verif Require Import KernelModel.

(** * C40 *)
(** The trapezoid weight of sample [i] out of [n]. *)
Definition trapezoid (n i : nat) : R := if bool_decide (i = 0 \/ S i = n)%nat then (1 / 2)%R else 1%R.

(** Consecutive blocks [a, b) that cut the samples [a, n) into non-empty pieces. *)
Fixpoint cut (a n : nat) (blocks : list (nat * nat)) : Prop :=
  match blocks with
  | [] => a = n
  | b :: bs => b.1 = a /\ (b.1 < b.2)%nat /\ (b.2 <= n)%nat /\ cut b.2 n bs
  end.

Lemma fill_weights_spec a b n :
  (a < b)%nat -> (b <= n)%nat -> fill_weights a b n (b - a) = Some (trapezoid n <$> seq a (b - a)).
Proof.
  intros Hab Hbn. unfold fill_weights. rewrite Nat.eqb_refl.
  set (m := (b - a)%nat). assert (m <> 0)%nat by lia.
  assert (forall w, length w = m -> (if (b =? n)%nat then (if (m =? 0)%nat then None else put w (m - 1) (1 / 2)%R) else Some w)
          = Some (if decide (b = n) then <[(m - 1)%nat := (1/2)%R]> w else w)) as Hlast.
  { intros w Hw. destruct (Nat.eqb_spec b n), (decide (b = n)); try done. destruct (Nat.eqb_spec m 0); [done|].
    unfold put. destruct (Nat.ltb_spec (m - 1) (length w)); [done|lia]. }
  assert ((if (a =? 0)%nat then put (replicate m 1%R) 0 (1 / 2)%R else Some (replicate m 1%R))
     = Some (if decide (a = 0)%nat then <[0%nat := (1/2)%R]> (replicate m 1%R) else replicate m 1%R)) as Hfirst.
  { destruct (Nat.eqb_spec a 0), (decide (a = 0)%nat); try done. unfold put.
    destruct (Nat.ltb_spec 0 (length (replicate m 1%R))); [done|]. rewrite replicate_length in *. lia. }
  cbv zeta. rewrite Hfirst. cbn [mbind option_bind]. rewrite Hlast.
  2:{ destruct (decide (a = 0)%nat); rewrite ?insert_length; by rewrite replicate_length. }
  f_equal. apply list_eq_same_length with m.
  { by rewrite fmap_length, seq_length. }
  { destruct (decide (b = n)), (decide (a = 0)%nat); rewrite ?insert_length; by rewrite replicate_length. }
  intros i x y Hi Hx Hy. rewrite list_lookup_fmap, lookup_seq_lt in Hy by done. simpl in Hy. injection Hy as <-.
  unfold trapezoid.
  assert (m = b - a)%nat as Hm by done. clearbody m. clear Hlast Hfirst.
  destruct (decide (b = n)) as [Eb|Nb], (decide (a = 0)%nat) as [Ea|Na];
    repeat (rewrite list_lookup_insert_Some in Hx || rewrite lookup_replicate in Hx);
    destruct (bool_decide_reflect (a + i = 0 \/ S (a + i) = n)%nat) as [Hb|Hb]; intuition (try lia; try congruence).
Qed.

(** Whatever the blocks, their weights one after the other are those of the trapezoidal rule. *)
Theorem C40_weights_independent_of_blocks n blocks :
  cut 0 n blocks ->
  exists ws, mapM (fun b => fill_weights b.1 b.2 n (b.2 - b.1)) blocks = Some ws /\
    mjoin ws = trapezoid n <$> seq 0 n.
Proof.
  assert (forall a, (a <= n)%nat -> cut a n blocks ->
    exists ws, mapM (fun b => fill_weights b.1 b.2 n (b.2 - b.1)) blocks = Some ws /\
    mjoin ws = trapezoid n <$> seq a (n - a)) as Hgen.
  { induction blocks as [|[a' b] bs IH]; simpl; intros a Ha.
    - intros ->. exists []. by rewrite Nat.sub_diag.
    - intros (-> & H1 & H2 & H3). destruct (IH b) as (ws & Hws & Hj); [done|done|].
      rewrite fill_weights_spec by done. simpl. rewrite Hws. simpl. eexists. split; [done|]. simpl. rewrite Hj, <- fmap_app. f_equal.
      replace b with (a + (b - a))%nat at 2 by lia. rewrite <- seq_app. f_equal. lia. }
  intros H. destruct (Hgen 0%nat) as (ws & ? & ?); [lia|done|]. exists ws. by rewrite Nat.sub_0_r in *.
Qed.
Print Assumptions C40_weights_independent_of_blocks.

(** They add up to the number of intervals. *)
Definition Rsum (l : list R) : R := foldr Rplus 0%R l.
Lemma Rsum_app l1 l2 : Rsum (l1 ++ l2) = (Rsum l1 + Rsum l2)%R.
Proof. induction l1; simpl; [lra|rewrite IHl1; lra]. Qed.
Theorem C40_weights_sum_to_intervals n :
  (2 <= n)%nat -> Rsum (trapezoid n <$> seq 0 n) = INR (n - 1).
Proof.
  intros Hn. destruct n as [|[|n]]; [lia|lia|].
  replace (seq 0 (S (S n))) with ([0%nat] ++ seq 1 n ++ [S n]).
  2:{ replace (S (S n)) with (1 + n + 1)%nat by lia. rewrite !seq_app. done. }
  rewrite !fmap_app, !Rsum_app.
  assert (trapezoid (S (S n)) <$> seq 1 n = replicate n 1%R) as ->.
  { apply list_eq_same_length with n; [by rewrite replicate_length|by rewrite fmap_length, seq_length|].
    intros i x y Hi. rewrite list_lookup_fmap, lookup_seq_lt, lookup_replicate_2 by done. intros [= <-] [= <-].
    unfold trapezoid. by rewrite bool_decide_eq_false_2 by lia. }
  simpl. unfold trapezoid. rewrite !bool_decide_eq_true_2 by lia.
  assert (Rsum (replicate n 1%R) = INR n) as ->.
  { clear. induction n; [done|]. rewrite S_INR. simpl. rewrite IHn. lra. }
  replace (S n - 0)%nat with (S n) by lia. replace (match n with 0%nat => 1%R | S _ => (INR n + 1)%R end) with (INR n + 1)%R.
  2:{ destruct n; simpl; lra. } lra.
Qed.
Print Assumptions C40_weights_sum_to_intervals.

(** 5 samples in blocks of 2. *)
Example C40_nonvacuous :
  cut 0 5 [(0, 2); (2, 4); (4, 5)]%nat /\
  mapM (fun b => fill_weights b.1 b.2 5 (b.2 - b.1)) [(0, 2); (2, 4); (4, 5)]%nat
    = Some [[1/2; 1]; [1; 1]; [1/2]]%R.
Proof. split; [simpl; lia|reflexivity]. Qed.
(** With a single sample there is no interval, but the sample gets weight 1/2; an empty block at the beginning or end
    writes outside its buffer. *)
Theorem C40_degenerate_ranges_refuted :
  fill_weights 0 1 1 1 = Some [(1/2)%R] /\ fill_weights 0 0 5 0 = None /\ fill_weights 5 5 5 0 = None.
Proof. split_and!; reflexivity. Qed.
Print Assumptions C40_degenerate_ranges_refuted.

(** * C41 *)
Local Open Scope R_scope.
Lemma frac_ok_true f : 0 <= f < 1 -> frac_ok f = true.
Proof. intros. unfold frac_ok. destruct (Rle_dec 0 f); [|lra]. destruct (Rlt_dec f 1); [done|lra]. Qed.
Lemma frac_ok_false f : ~ (0 <= f < 1) -> frac_ok f = false.
Proof. intros. unfold frac_ok. destruct (Rle_dec 0 f); [|done]. destruct (Rlt_dec f 1); [lra|done]. Qed.

(** Interpolated value: weights times samples at the positions [i_int - support + 1, ..., i_int + support]. *)
Fixpoint dot (w s : list R) : R :=
  match w, s with w0 :: w', s0 :: s' => w0 * s0 + dot w' s' | _, _ => 0 end.
(** Samples of a function around position [x]. *)
Definition samples (k : kernel) (g : R -> R) (x : R) : list R :=
  (fun j => g (x + INR j - INR (k_support k - 1))) <$> seq 0 (2 * k_support k).
Definition quadratic (a b c : R) (x : R) : R := a + b * x + c * x * x.

Lemma keys_weights f : 0 <= f < 1 ->
  k_kern keys f = Some [ f * (- (1/2) + (1 - 1/2 * f) * f);
                         1 + f * f * (- (5/2) + 3/2 * f);
                         f * (1/2 + (2 - 3/2 * f) * f);
                         (- (1/2) + 1/2 * f) * f * f ].
Proof.
  intros Hf. unfold keys. cbn [k_kern]. rewrite (frac_ok_true f Hf). cbv zeta.
  assert (sqrt 7 * sqrt 7 = 7) as Hs by (apply sqrt_sqrt; lra). set (s := sqrt 7) in *.
  f_equal. f_equal; [field|]. f_equal; [|f_equal; [|f_equal; field]].
  - transitivity (1 + f * f * (-5/2 + 3/2 * f) + (f - 1) * (7 - s * s) / 6); [field|rewrite Hs; field].
  - transitivity (f * (1/2 + (2 - 3/2 * f) * f) - f * (7 - s * s) / 6); [field|rewrite Hs; field].
Qed.

Theorem C41_partition_of_unity f :
  0 <= f < 1 ->
  (exists w, k_kern linear f = Some w /\ length w = 2%nat /\ Rsum w = 1) /\
  (exists w, k_kern keys f = Some w /\ length w = 4%nat /\ Rsum w = 1).
Proof.
  intros Hf. split.
  - eexists. unfold linear. cbn [k_kern]. rewrite frac_ok_true by done. split; [done|]. split; [done|]. simpl. lra.
  - eexists. rewrite keys_weights by done. split; [done|]. split; [done|]. simpl. lra.
Qed.
Print Assumptions C41_partition_of_unity.

(** Linear functions are reproduced by both kernels and quadratic ones by the Keys kernel, at every
    fractional position; in particular at [f = 0] any function is reproduced at its node. *)
Theorem C41_polynomial_reproduction f x :
  0 <= f < 1 ->
  (forall a b, exists w, k_kern linear f = Some w /\
     dot w (samples linear (quadratic a b 0) x) = quadratic a b 0 (x + f)) /\
  (forall a b c, exists w, k_kern keys f = Some w /\
     dot w (samples keys (quadratic a b c) x) = quadratic a b c (x + f)).
Proof.
  intros Hf. split.
  - intros a b. eexists. unfold linear. cbn [k_kern]. rewrite frac_ok_true by done. split; [done|].
    unfold samples, quadratic. simpl. ring_simplify. ring.
  - intros a b c. eexists. rewrite keys_weights by done. split; [done|]. unfold samples, quadratic. simpl. field.
Qed.
Print Assumptions C41_polynomial_reproduction.

Theorem C41_nodes_reproduced (g : R -> R) x :
  (exists w, k_kern linear 0 = Some w /\ dot w (samples linear g x) = g x) /\
  (exists w, k_kern keys 0 = Some w /\ dot w (samples keys g x) = g x).
Proof.
  split; eexists.
  - unfold linear. cbn [k_kern]. rewrite frac_ok_true by lra. split; [done|]. unfold samples. simpl.
    replace (x + 0 - 0) with x by ring. lra.
  - rewrite keys_weights by lra. split; [done|]. unfold samples. simpl. replace (x + 1 - 1) with x by ring. lra.
Qed.
Print Assumptions C41_nodes_reproduced.

(** A cubic is not reproduced by the Keys kernel (third order accuracy only), and a quadratic not by the linear one. *)
Theorem C41_sharpness :
  (exists w, k_kern linear (1/2) = Some w /\ dot w (samples linear (quadratic 0 0 1) 0) <> quadratic 0 0 1 (0 + 1/2)) /\
  (exists w, k_kern keys (1/4) = Some w /\
     dot w (samples keys (fun y => y * y * y) 0) <> (0 + 1/4) * (0 + 1/4) * (0 + 1/4)).
Proof.
  split; eexists.
  - unfold linear. cbn [k_kern]. rewrite frac_ok_true by lra. split; [done|]. unfold samples, quadratic. simpl. lra.
  - rewrite keys_weights by lra. split; [done|]. unfold samples. simpl. lra.
Qed.
Print Assumptions C41_sharpness.

(** Positions outside [0, 1) are rejected. *)
Theorem C41_out_of_range_rejected f : ~ (0 <= f < 1) -> k_kern linear f = None /\ k_kern keys f = None.
Proof. intros H. unfold linear, keys. cbn [k_kern]. by rewrite frac_ok_false. Qed.
Print Assumptions C41_out_of_range_rejected.
