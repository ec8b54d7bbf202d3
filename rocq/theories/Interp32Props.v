(** C74: interpolation in 32-bit floats is the exact interpolation up to a small multiple of the largest sample. *)
From stdpp Require Import base list list_numbers numbers option.
From Coq Require Import Reals ZArith Bool Lra Lia.
From Flocq Require Import Core IEEE754.BinarySingleNaN.
From Verif Require Import IndexSpec LoopsModel LoopsProofs NDArrayModel NDArrayProofs NDArrayOps NDArrayProps.
From Verif Require Import AntennaModel AntennaSpec AntennaProps DiscreteModel DiscreteSpec DiscreteProps Interp32Model Interp32Spec Interp32Weights Interp32Proofs.
Local Open Scope R_scope.
Local Notation u := (/ 16777216).
Local Notation add := (Bplus mode_NE).
Local Notation mul := (Bmult mode_NE).

(** * Pairs of indices *)
Fixpoint pairs (l1 l2 : list nat) : list (nat * nat) := match l1 with [] => [] | i :: l1 => (pair i <$> l2) ++ pairs l1 l2 end.
Lemma elem_pairs l1 l2 p : p ∈ pairs l1 l2 -> p.1 ∈ l1 /\ p.2 ∈ l2.
Proof.
  induction l1 as [|i l1 IH]; cbn [pairs]; [intros H; inversion H|]. intros [H|H]%elem_of_app.
  - apply elem_of_list_fmap in H as (j & -> & Hj). cbn. split; [left|done].
  - destruct (IH H). split; [by right|done].
Qed.
Lemma pairs_length l1 l2 : length (pairs l1 l2) = (length l1 * length l2)%nat.
Proof. induction l1 as [|i l1 IH]; [done|]. cbn [pairs length]. rewrite app_length, fmap_length, IH. lia. Qed.
Lemma tot_pairs l1 l2 g : tot (pairs l1 l2) g = tot l1 (fun i => tot l2 (fun j => g (i, j))).
Proof. induction l1 as [|i l1 IH]; [done|]. cbn [pairs]. rewrite tot_app, tot_cons, IH, tot_map. done. Qed.
Lemma fdot_pairs l1 l2 (a b : nat -> nat -> f32) acc :
  foldl (fun acc i => foldl (fun acc j => add acc (mul (a i j) (b i j))) acc l2) acc l1 = fdot acc (pairs l1 l2) (fun p => a p.1 p.2) (fun p => b p.1 p.2).
Proof.
  revert acc. induction l1 as [|i l1 IH]; intros acc; [done|]. cbn [foldl pairs]. rewrite IH. unfold fdot. rewrite foldl_app. f_equal.
  clear IH. revert acc. induction l2 as [|j l2 IH2]; intros acc; [done|]. cbn. apply IH2.
Qed.
Lemma tot_seq a n g : tot (seq a n) g = tot (seq 0 n) (fun j => g (a + j)%nat).
Proof. rewrite <- (tot_map (seq 0 n) (fun j => (a + j)%nat) g). f_equal. symmetry. etrans; [exact (fmap_add_seq a 0 n)|]. f_equal. lia. Qed.
Lemma tot_const {I} (L : list I) a : tot L (fun _ => a) = INR (length L) * a.
Proof. induction L as [|i L IH]; [rewrite tot_nil; simpl; lra|]. rewrite tot_cons, IH. cbn [length]. rewrite S_INR. lra. Qed.
Lemma tot_scale_l {I} (L : list I) g a : tot L (fun i => a * g i) = a * tot L g.
Proof. rewrite Rmult_comm, <- tot_scale. apply tot_ext. intros. ring. Qed.
Lemma tot_elem {I} (L : list I) g i : (forall j, j ∈ L -> 0 <= g j) -> i ∈ L -> g i <= tot L g.
Proof.
  induction L as [|j L IH]; intros Hg Hi; [inversion Hi|]. rewrite tot_cons. assert (0 <= tot L g) by (apply tot_pos; intros; apply Hg; by right). apply elem_of_cons in Hi as [->|Hi].
  - lra.
  - assert (g i <= tot L g) by (apply IH; [intros; apply Hg; by right|done]). assert (0 <= g j) by (apply Hg; left). lra.
Qed.

(** * Any kernel *)
(** The weights that [K] computes are within [e] of [W]. *)
Record good32 (K : kernel32) (W : R -> nat -> R) (e : nat -> R) (SB EB : R) : Prop := Good32 {
  g_sup : (1 <= k32_support K <= 2)%nat;
  g_kern : forall f : f32, is_finite f = true -> 0 <= B2R f < 1 -> exists ws, k32_kern K f = Some ws /\ length ws = (2 * k32_support K)%nat /\
    forall i, (i < 2 * k32_support K)%nat -> is_finite (nth i ws zero32) = true /\ Rabs (B2R (nth i ws zero32) - W (B2R f) i) <= e i;
  g_sum : forall f, 0 <= f < 1 -> tot (seq 0 (2 * k32_support K)) (fun i => Rabs (W f i)) <= SB;
  g_err : (forall i, 0 <= e i) /\ tot (seq 0 (2 * k32_support K)) e <= EB;
  g_small : 0 <= SB <= 2 /\ 0 <= EB <= / 4
}.
Definition inner_error (ks SB EB M : R) : R := EB * M + (ks + 1) * (1001 / 1000) * (u * ((SB + EB) * M)) + 2 * ks * eta.
Definition outer_error (ks SB EB : R) : R := 2 * SB * EB + EB * EB + (SB + EB) * (SB + EB) * u + ks * ks * eta.
Definition whole_error (ks SB EB M : R) : R :=
  let ie := inner_error ks SB EB M in let oe := outer_error ks SB EB in
  SB * SB * ie + oe * (SB * M + ie) + (ks * ks + 1) * (1001 / 1000) * (u * ((SB * SB + oe) * (SB * M + ie))) + 2 * (ks * ks) * eta.

Section Any.
  Context (K : kernel32) (W : R -> nat -> R) (e : nat -> R) (SB EB : R) (HK : good32 K W e SB EB).
  Local Notation ks := (2 * k32_support K)%nat.
  Local Notation off := (k32_support K - 1)%nat.
  Lemma ks_real : 2 <= INR ks <= 4.
  Proof. destruct (g_sup _ _ _ _ _ HK). split; [replace 2 with (INR 2) by reflexivity|replace 4 with (INR 4) by (simpl; lra)]; apply le_INR; lia. Qed.
  Lemma errors_pos M : 0 <= M -> 0 <= inner_error (INR ks) SB EB M /\ 0 <= outer_error (INR ks) SB EB.
  Proof.
    intros HM. pose proof ks_real as Hk. destruct (g_small _ _ _ _ _ HK) as [[S0 S1] [E0 E1]]. pose proof eta_small as [H0 H1]. unfold inner_error, outer_error.
    assert (0 <= EB * M) by (apply Rmult_le_pos; lra). assert (0 <= (SB + EB) * M) by (apply Rmult_le_pos; lra).
    assert (0 <= (INR ks + 1) * (1001 / 1000) * (u * ((SB + EB) * M))) by (apply Rmult_le_pos; lra). assert (0 <= INR ks * eta) by (apply Rmult_le_pos; lra).
    assert (0 <= SB * EB) by (apply Rmult_le_pos; lra). assert (0 <= EB * EB) by (apply Rmult_le_pos; lra). assert (0 <= (SB + EB) * (SB + EB)) by (apply Rmult_le_pos; lra). assert (0 <= INR ks * INR ks * eta) by (apply Rmult_le_pos; [apply Rmult_le_pos|]; lra).
    split; lra.
  Qed.

  (** One column. *)
  Lemma column_near (ws : list f32) (f : R) (d : nat -> f32) M : 0 <= f < 1 -> 0 <= M <= 2 ^ 100 ->
    (forall i, (i < ks)%nat -> is_finite (nth i ws zero32) = true /\ Rabs (B2R (nth i ws zero32) - W f i) <= e i) ->
    (forall i, (i < ks)%nat -> bounded_by M (d i)) ->
    near_to (fdot zero32 (seq 0 ks) (fun i => nth i ws zero32) d) (tot (seq 0 ks) (fun i => W f i * B2R (d i))) (inner_error (INR ks) SB EB M) /\
    Rabs (tot (seq 0 ks) (fun i => W f i * B2R (d i))) <= SB * M.
  Proof.
    intros Hf HM Hw Hd. pose proof ks_real as Hk. destruct (g_small _ _ _ _ _ HK) as [[S0 S1] [E0 E1]]. destruct (g_sup _ _ _ _ _ HK) as [U0 U1]. destruct (g_err _ _ _ _ _ HK) as [_ HE]. pose proof (g_sum _ _ _ _ _ HK f Hf) as HS.
    split.
    - pose proof (fdot_near (seq 0 ks) (fun i => nth i ws zero32) d (fun i => B2R (nth i ws zero32)) (fun i => B2R (d i)) (W f) (fun i => B2R (d i)) e 0 M SB EB) as H.
      rewrite seq_length in H. unfold inner_error. replace (EB * M + (INR ks + 1) * (1001 / 1000) * (u * ((SB + EB) * M)) + 2 * INR ks * eta) with (SB * 0 + EB * (M + 0) + (INR ks + 1) * (1001 / 1000) * (u * ((SB + EB) * (M + 0))) + 2 * INR ks * eta) by ring.
      apply H; [lra|lra|lia| | |exact HS|exact HE|].
      + intros i Hi%elem_of_seq. destruct (Hw i) as [A _]; [lia|]. destruct (Hd i) as [B _]; [lia|]. split; [exact A|]. split; [exact B|reflexivity].
      + intros i Hi%elem_of_seq. destruct (Hw i) as [_ A]; [lia|]. destruct (Hd i) as [_ B]; [lia|]. split; [exact A|]. split; [|exact B]. rewrite Rminus_diag_eq by reflexivity. rewrite Rabs_R0. lra.
      + assert (2 ^ 105 = 32 * 2 ^ 100) as ->. { change 105%nat with (5 + 100)%nat. rewrite pow_add. simpl (2 ^ 5). lra. } assert ((SB + EB) * (M + 0) <= 3 * 2 ^ 100) by (apply Rmult_le_compat; lra). pose proof (pow_le 2 100 ltac:(lra)). lra.
    - eapply Rle_trans; [apply tot_abs|]. apply Rle_trans with (tot (seq 0 ks) (fun i => Rabs (W f i) * M)).
      + apply tot_le. intros i Hi%elem_of_seq. rewrite Rabs_mult. apply Rmult_le_compat_l; [apply Rabs_pos|]. apply Hd. lia.
      + rewrite tot_scale. apply Rmult_le_compat_r; lra.
  Qed.

  (** Errors of the products of two weights. *)
  Definition pair_error (a b : nat -> R) (p : nat * nat) : R := Rabs (a p.1) * e p.2 + Rabs (b p.2) * e p.1 + e p.1 * e p.2 + (Rabs (a p.1) + e p.1) * (Rabs (b p.2) + e p.2) * u + eta.
  Lemma pair_errors f1 f2 : 0 <= f1 < 1 -> 0 <= f2 < 1 ->
    tot (pairs (seq 0 ks) (seq 0 ks)) (pair_error (W f1) (W f2)) <= outer_error (INR ks) SB EB /\
    tot (pairs (seq 0 ks) (seq 0 ks)) (fun p => Rabs (W f1 p.1 * W f2 p.2)) <= SB * SB.
  Proof.
    intros H1 H2. pose proof (g_sum _ _ _ _ _ HK f1 H1) as S1. pose proof (g_sum _ _ _ _ _ HK f2 H2) as S2. destruct (g_err _ _ _ _ _ HK) as [He HE]. destruct (g_small _ _ _ _ _ HK) as [[Z0 Z1] [E0 E1]].
    set (L := seq 0 ks) in *. set (T1 := tot L (fun i => Rabs (W f1 i))) in *. set (T2 := tot L (fun i => Rabs (W f2 i))) in *. set (TE := tot L e) in *.
    assert (0 <= T1) as P1 by (apply tot_pos; intros; apply Rabs_pos). assert (0 <= T2) as P2 by (apply tot_pos; intros; apply Rabs_pos). assert (0 <= TE) as P3 by (apply tot_pos; intros; apply He).
    split.
    - assert (tot (pairs L L) (pair_error (W f1) (W f2)) = T1 * TE + T2 * TE + TE * TE + (T1 + TE) * (T2 + TE) * u + INR ks * INR ks * eta) as ->.
      { rewrite tot_pairs. rewrite (tot_ext L _ (fun i => Rabs (W f1 i) * TE + T2 * e i + e i * TE + (Rabs (W f1 i) + e i) * ((T2 + TE) * u) + INR ks * eta)).
        - rewrite !tot_plus, tot_const. rewrite !tot_scale, tot_scale_l, tot_plus. fold T1 TE. unfold L. rewrite seq_length. ring.
        - intros i Hi. unfold pair_error. cbn [fst snd]. rewrite !tot_plus, tot_const, tot_scale_l. rewrite (tot_scale_l L e (e i)).
          rewrite (tot_ext L (fun i0 => (Rabs (W f1 i) + e i) * (Rabs (W f2 i0) + e i0) * u) (fun i0 => ((Rabs (W f1 i) + e i) * u) * (Rabs (W f2 i0) + e i0))) by (intros; ring). rewrite tot_scale_l, tot_plus, tot_scale.
          fold T2 TE. unfold L. rewrite seq_length. ring. }
      unfold outer_error. assert (T1 * TE <= SB * EB) by (apply Rmult_le_compat; lra). assert (T2 * TE <= SB * EB) by (apply Rmult_le_compat; lra). assert (TE * TE <= EB * EB) by (apply Rmult_le_compat; lra). assert ((T1 + TE) * (T2 + TE) <= (SB + EB) * (SB + EB)) by (apply Rmult_le_compat; lra). lra.
    - rewrite tot_pairs. rewrite (tot_ext L _ (fun i => Rabs (W f1 i) * T2)). { rewrite tot_scale. fold T1. apply Rmult_le_compat; lra. }
      intros i Hi. cbn [fst snd]. unfold T2. rewrite <- tot_scale_l. apply tot_ext. intros. apply Rabs_mult.
  Qed.

  (** The whole sum, for the weights [w1], [w2], [w3] near to those of [f1], [f2], [f3]. *)
  Lemma whole_near (w1 w2 w3 : list f32) f1 f2 f3 (d : nat -> nat -> nat -> f32) M : 0 <= f1 < 1 -> 0 <= f2 < 1 -> 0 <= f3 < 1 -> 0 <= M <= 2 ^ 100 ->
    (forall i, (i < ks)%nat -> is_finite (nth i w1 zero32) = true /\ Rabs (B2R (nth i w1 zero32) - W f1 i) <= e i) ->
    (forall i, (i < ks)%nat -> is_finite (nth i w2 zero32) = true /\ Rabs (B2R (nth i w2 zero32) - W f2 i) <= e i) ->
    (forall i, (i < ks)%nat -> is_finite (nth i w3 zero32) = true /\ Rabs (B2R (nth i w3 zero32) - W f3 i) <= e i) ->
    (forall i j k, (i < ks)%nat -> (j < ks)%nat -> (k < ks)%nat -> bounded_by M (d i j k)) ->
    near_to (fdot zero32 (pairs (seq 0 ks) (seq 0 ks)) (fun p => fdot zero32 (seq 0 ks) (fun i => nth i w3 zero32) (d p.1 p.2)) (fun p => mul (nth p.1 w1 zero32) (nth p.2 w2 zero32)))
      (exact_value ks W f1 f2 f3 (fun i j k => B2R (d i j k))) (whole_error (INR ks) SB EB M).
  Proof.
    intros H1 H2 H3 HM Hw1 Hw2 Hw3 Hd. pose proof ks_real as Hk. destruct (g_small _ _ _ _ _ HK) as [[S0 S1] [E0 E1]]. destruct (g_sup _ _ _ _ _ HK) as [U0 U1]. destruct (g_err _ _ _ _ _ HK) as [He HE].
    destruct (errors_pos M) as [Pi Po]; [lra|]. destruct (pair_errors f1 f2 H1 H2) as [Q1 Q2]. set (ie := inner_error (INR ks) SB EB M) in *. set (oe := outer_error (INR ks) SB EB) in *.
    assert (0 <= SB * M <= 2 * 2 ^ 100) as HSM. { split; [apply Rmult_le_pos; lra|apply Rmult_le_compat; lra]. } pose proof eta_small as [Z0 Z1].
    assert (1 <= 2 ^ 100) as Big. { apply Rle_trans with (2 ^ 0); [simpl; lra|apply Rle_pow; [lra|lia]]. }
    assert (ie <= / 2 * 2 ^ 100) as Bi.
    { unfold ie, inner_error. assert (EB * M <= / 4 * 2 ^ 100) by (apply Rmult_le_compat; lra). assert (0 <= (SB + EB) * M <= 3 * 2 ^ 100) by (split; [apply Rmult_le_pos; lra|apply Rmult_le_compat; lra]).
      assert ((INR ks + 1) * (1001 / 1000) * (u * ((SB + EB) * M)) <= 6 * (u * (3 * 2 ^ 100))) by (apply Rmult_le_compat; lra). assert (2 * INR ks * eta <= 8 * eta) by (apply Rmult_le_compat_r; lra). lra. }
    assert (oe <= 2) as Bo.
    { unfold oe, outer_error. assert (SB * EB <= 2 * / 4) by (apply Rmult_le_compat; lra). assert (EB * EB <= / 4 * / 4) by (apply Rmult_le_compat; lra). assert ((SB + EB) * (SB + EB) <= 3 * 3) by (apply Rmult_le_compat; lra).
      assert (INR ks * INR ks * eta <= 4 * 4 * eta) by (apply Rmult_le_compat_r; [lra|apply Rmult_le_compat; lra]). lra. }
    assert (0 <= SB * SB <= 4) as BS. { split; [apply Rmult_le_pos; lra|replace 4 with (2 * 2) by ring; apply Rmult_le_compat; lra]. }
    set (PL := pairs (seq 0 ks) (seq 0 ks)) in *.
    assert (exact_value ks W f1 f2 f3 (fun i j k => B2R (d i j k)) = tot PL (fun p => W f1 p.1 * W f2 p.2 * tot (seq 0 ks) (fun k => W f3 k * B2R (d p.1 p.2 k)))) as ->.
    { unfold exact_value, PL. rewrite tot_pairs, total_tot. apply tot_ext. intros i Hi. rewrite total_tot. apply tot_ext. intros j Hj. rewrite total_tot. cbn [fst snd]. rewrite <- tot_scale_l. apply tot_ext. intros k Hk'. ring. }
    assert (length PL = (ks * ks)%nat) as LPL. { unfold PL. by rewrite pairs_length, !seq_length. }
    assert (INR (length PL) = INR ks * INR ks) as RPL by (rewrite LPL; apply mult_INR).
    assert (forall p, p ∈ PL -> (p.1 < ks)%nat /\ (p.2 < ks)%nat) as HPL. { intros p Hp. apply elem_pairs in Hp as [A B]. apply elem_of_seq in A, B. lia. }
    unfold whole_error. cbv zeta. fold ie oe. rewrite <- RPL.
    assert (forall p, p ∈ PL -> near_to (mul (nth p.1 w1 zero32) (nth p.2 w2 zero32)) (W f1 p.1 * W f2 p.2) (pair_error (W f1) (W f2) p)) as Hprod.
    { intros p Hp. destruct (HPL p Hp) as [P1 P2].
      assert (Rabs (W f1 p.1) <= SB) as A1. { eapply Rle_trans; [|exact (g_sum _ _ _ _ _ HK f1 H1)]. apply (tot_elem _ (fun i => Rabs (W f1 i))); [intros; apply Rabs_pos|]. apply elem_of_seq. lia. }
      assert (Rabs (W f2 p.2) <= SB) as A2. { eapply Rle_trans; [|exact (g_sum _ _ _ _ _ HK f2 H2)]. apply (tot_elem _ (fun i => Rabs (W f2 i))); [intros; apply Rabs_pos|]. apply elem_of_seq. lia. }
      assert (e p.1 <= EB) as A3. { eapply Rle_trans; [|exact HE]. apply tot_elem; [intros; apply He|]. apply elem_of_seq. lia. }
      assert (e p.2 <= EB) as A4. { eapply Rle_trans; [|exact HE]. apply tot_elem; [intros; apply He|]. apply elem_of_seq. lia. }
      pose proof (He p.1). pose proof (He p.2). pose proof (Rabs_pos (W f1 p.1)). pose proof (Rabs_pos (W f2 p.2)).
      apply (mult_error _ _ _ _ (e p.1) (e p.2) (Rabs (W f1 p.1)) (Rabs (W f2 p.2))); [exact (Hw1 _ P1)|exact (Hw2 _ P2)|lra|lra| |].
      - apply Rle_trans with (3 * 3); [apply Rmult_le_compat; lra|lra].
      - unfold pair_error. lra. }
    pose proof (fdot_near PL (fun p => fdot zero32 (seq 0 ks) (fun i => nth i w3 zero32) (d p.1 p.2)) (fun p => mul (nth p.1 w1 zero32) (nth p.2 w2 zero32))
      (fun p => B2R (mul (nth p.1 w1 zero32) (nth p.2 w2 zero32))) (fun p => B2R (fdot zero32 (seq 0 ks) (fun i => nth i w3 zero32) (d p.1 p.2)))
      (fun p => W f1 p.1 * W f2 p.2) (fun p => tot (seq 0 ks) (fun k => W f3 k * B2R (d p.1 p.2 k))) (pair_error (W f1) (W f2)) ie (SB * M) (SB * SB) oe) as HF.
    apply HF; [exact Pi|lra| | | |exact Q2|exact Q1|].
    - rewrite LPL. destruct (Nat.le_gt_cases (k32_support K) 1); [assert (k32_support K = 1)%nat as -> by lia|assert (k32_support K = 2)%nat as -> by lia]; cbn; lia.
    - intros p Hp. destruct (HPL p Hp) as [P1 P2]. destruct (column_near w3 f3 (d p.1 p.2) M H3 HM Hw3) as [[C1 _] _]; [intros; apply Hd; lia|]. split; [exact C1|]. split; [exact (proj1 (Hprod p Hp))|apply Rmult_comm].
    - intros p Hp. destruct (HPL p Hp) as [P1 P2]. destruct (column_near w3 f3 (d p.1 p.2) M H3 HM Hw3) as [[_ C1] C2]; [intros; apply Hd; lia|]. split; [exact (proj2 (Hprod p Hp))|]. split; [exact C1|exact C2].
    - assert (2 ^ 105 = 32 * 2 ^ 100) as ->. { change 105%nat with (5 + 100)%nat. rewrite pow_add. simpl (2 ^ 5). lra. } assert ((SB * SB + oe) * (SB * M + ie) <= 6 * (3 * 2 ^ 100)) by (apply Rmult_le_compat; lra). lra.
  Qed.

  Lemma fdot_ext {I} acc (L : list I) (a b a' b' : I -> f32) : (forall i, i ∈ L -> a i = a' i /\ b i = b' i) -> fdot acc L a b = fdot acc L a' b'.
  Proof.
    unfold fdot. revert acc. induction L as [|i L IH]; intros acc H; [done|]. cbn [foldl]. destruct (H i) as [-> ->]; [left|]. apply IH. intros. apply H. by right.
  Qed.
  Lemma pairs_seq a b n m : pairs (seq a n) (seq b m) = (fun p : nat * nat => (a + p.1, b + p.2)%nat) <$> pairs (seq 0 n) (seq 0 m).
  Proof.
    assert (forall l, pairs ((fun i => (a + i)%nat) <$> l) ((fun j => (b + j)%nat) <$> seq 0 m) = (fun p : nat * nat => (a + p.1, b + p.2)%nat) <$> pairs l (seq 0 m)) as H.
    { induction l as [|i l IH]; [done|]. rewrite fmap_cons. cbn [pairs]. rewrite fmap_app, IH. f_equal. rewrite <- !list_fmap_compose. done. }
    rewrite <- H. f_equal; symmetry; (etrans; [apply fmap_add_seq|]); f_equal; lia.
  Qed.
  Lemma fdot_map {I J} acc (L : list I) (f : I -> J) a b : fdot acc (f <$> L) a b = fdot acc L (fun i => a (f i)) (fun i => b (f i)).
  Proof. unfold fdot. revert acc. induction L as [|i L IH]; intros acc; [done|]. rewrite fmap_cons. cbn [foldl]. apply IH. Qed.

  Lemma any_interpolation vd arr n1 n2 n3 x1 x2 o1 f1 o2 f2 start delta n (o3 : nat -> nat) (f3 : nat -> R) M :
    api_array vd arr -> a_shape arr = [n1; n2; n3] -> position x1 o1 f1 -> position x2 o2 f2 -> room (k32_support K) n1 o1 -> room (k32_support K) n2 o2 ->
    (forall s, (s < n)%nat -> position (inner_ind32 start delta s) (o3 s) (f3 s) /\ room (k32_support K) n3 (o3 s)) ->
    0 <= M <= 2 ^ 100 -> (forall i j k c, (i < n1)%nat -> (j < n2)%nat -> (k < n3)%nat -> (c < vd)%nat -> bounded_by M (component vd arr [i; j; k] c)) ->
    exists out, interpolate32 K vd arr (replicate n (replicate vd zero32)) x1 x2 start delta n = Some out /\ length out = n /\
      forall s, (s < n)%nat -> exists row, out !! s = Some row /\ length row = vd /\ forall c, (c < vd)%nat -> exists y, row !! c = Some y /\
        near_to y (exact_value ks W f1 f2 (f3 s) (fun i j k => B2R (component vd arr [o1 - off + i; o2 - off + j; o3 s - off + k]%nat c))) (whole_error (INR ks) SB EB M).
  Proof.
    intros Ha Hsh Hp1 Hp2 Hr1 Hr2 Hs HM Hb. destruct (g_sup _ _ _ _ _ HK) as [U0 U1].
    destruct (modf32_spec _ _ _ Hp1) as (r1 & M1 & F1 & V1). destruct (modf32_spec _ _ _ Hp2) as (r2 & M2 & F2 & V2).
    destruct Hp1 as (_ & B1 & _). destruct Hp2 as (_ & B2 & _).
    destruct (g_kern _ _ _ _ _ HK r1 F1) as (w1 & K1 & L1 & N1); [by rewrite V1|]. destruct (g_kern _ _ _ _ _ HK r2 F2) as (w2 & K2 & L2 & N2); [by rewrite V2|]. rewrite V1 in N1. rewrite V2 in N2.
    set (r3 := fun s => match modf32 (inner_ind32 start delta s) with Some (_, r) => r | None => zero32 end).
    set (w3 := fun s => match k32_kern K (r3 s) with Some w => w | None => [] end).
    assert (forall s, (s < n)%nat -> modf32 (inner_ind32 start delta s) = Some (o3 s, r3 s) /\ k32_kern K (r3 s) = Some (w3 s) /\ length (w3 s) = ks /\ room (k32_support K) n3 (o3 s) /\ 0 <= f3 s < 1 /\
      (forall i, (i < ks)%nat -> is_finite (nth i (w3 s) zero32) = true /\ Rabs (B2R (nth i (w3 s) zero32) - W (f3 s) i) <= e i)) as H3.
    { intros s Hsn. destruct (Hs s Hsn) as [Hp3 Hr3]. destruct (modf32_spec _ _ _ Hp3) as (r & M3 & F3 & V3). destruct Hp3 as (_ & B3 & _).
      destruct (g_kern _ _ _ _ _ HK r F3) as (w & K3 & L3 & N3); [by rewrite V3|]. rewrite V3 in N3. unfold w3, r3. rewrite M3, K3. done. }
    assert (replicate n (replicate vd zero32) = ptab n vd (fun _ _ => zero32)) as ->.
    { rewrite (pvec_const vd zero32). apply list_eq_same_length with n; rewrite ?replicate_length; try done. { unfold ptab. by rewrite fmap_length, seq_length. }
      intros i a b Hi. rewrite ptab_lookup, lookup_replicate_2 by done. congruence. }
    pose proof (interpolate32_spec K vd arr n1 n2 n3 x1 x2 o1 r1 o2 r2 w1 w2 start delta n o3 r3 w3 (fun _ _ => zero32)) as HI. cbv zeta in HI.
    rewrite HI; [|lia|exact Ha|exact Hsh|exact M1|exact M2|exact K1|exact K2|exact L1|exact L2|exact Hr1|exact Hr2|].
    2: { intros s Hsn. destruct (H3 s Hsn) as (A & B & C & D & _). done. }
    clear HI. eexists. split; [reflexivity|]. split; [unfold ptab; by rewrite fmap_length, seq_length|]. intros s Hsn. eexists. rewrite ptab_lookup by done. split; [reflexivity|]. split; [apply pvec_length|].
    intros c Hc. eexists. rewrite pvec_lookup by done. split; [reflexivity|].
    destruct (H3 s Hsn) as (_ & _ & _ & [Q3 Q3'] & B3 & N3). destruct Hr1 as [Q1 Q1'], Hr2 as [Q2 Q2'].
    rewrite (fdot_pairs (seq (o1 - off) ks) (seq (o2 - off) ks) (fun i1 i2 => fdot zero32 (seq 0 ks) (fun i => nth i (w3 s) zero32) (fun i => component vd arr [i1; i2; o3 s - off + i]%nat c)) (fun i1 i2 => mul (nth (i1 - (o1 - off)) w1 zero32) (nth (i2 - (o2 - off)) w2 zero32))).
    rewrite pairs_seq, fdot_map. cbn [fst snd].
    rewrite (fdot_ext _ _ _ _ (fun p => fdot zero32 (seq 0 ks) (fun i => nth i (w3 s) zero32) (fun k => component vd arr [o1 - off + p.1; o2 - off + p.2; o3 s - off + k]%nat c)) (fun p => mul (nth p.1 w1 zero32) (nth p.2 w2 zero32))).
    2: { intros p Hp. split; [done|]. f_equal; f_equal; lia. }
    apply (whole_near w1 w2 (w3 s) f1 f2 (f3 s) (fun i j k => component vd arr [o1 - off + i; o2 - off + j; o3 s - off + k]%nat c)); try done.
    intros i j k Hi Hj Hk. apply Hb; [lia..|done].
  Qed.
End Any.

(** * The two kernels *)
Definition keys_error (i : nat) : R := match i with 0%nat => 2 * u | 1%nat => 21 * u | 2%nat => 14 * u | 3%nat => 3 * u | _ => 0 end.
Definition linear_error (i : nat) : R := match i with 0%nat => u | _ => 0 end.
Lemma good_keys32 : good32 keys32 keys_weight keys_error (5 / 4) (40 * u).
Proof.
  constructor.
  - cbn. lia.
  - intros f Ff Hf. destruct (C74_keys_weights f Ff Hf) as (a0 & a1 & a2 & a3 & E & F0 & F1 & F2 & F3 & W0 & W1 & W2 & W3). assert (2 ^ 24 = 16777216) as P by (simpl pow; lra). rewrite P in *.
    exists [a0; a1; a2; a3]. split; [exact E|]. split; [reflexivity|]. intros i Hi. change (2 * k32_support keys32)%nat with 4%nat in Hi.
    destruct i as [|[|[|[|i]]]]; cbn [nth keys_error]; [split; [assumption|lra]..|lia].
  - intros f Hf. change (2 * k32_support keys32)%nat with 4%nat. cbn [seq tot foldr keys_weight].
    assert (0 <= f * (1 - f)) as S2 by (apply Rmult_le_pos; lra). assert (0 <= f * f) as S3 by apply Rle_0_sqr.
    rewrite (Rabs_left1 (- (f * f * f) / 2 + f * f - f / 2)) by (replace (- (f * f * f) / 2 + f * f - f / 2) with (- (f * ((1 - f) * (1 - f)) / 2)) by field; pose proof (Rmult_le_pos f ((1 - f) * (1 - f)) ltac:(lra) (Rle_0_sqr _)); lra).
    rewrite (Rabs_left1 (f * f * f / 2 - f * f / 2)) by (replace (f * f * f / 2 - f * f / 2) with (- (f * f * (1 - f) / 2)) by field; pose proof (Rmult_le_pos (f * f) (1 - f) S3 ltac:(lra)); lra).
    rewrite (Rabs_pos_eq (3 * (f * f * f) / 2 - 5 * (f * f) / 2 + 1)). 2: { replace (3 * (f * f * f) / 2 - 5 * (f * f) / 2 + 1) with ((1 - f) * (1 + f * (1 - f) * (3 / 2) + f * (- / 2))) by field. apply Rmult_le_pos; lra. }
    rewrite (Rabs_pos_eq (- (3 * (f * f * f)) / 2 + 2 * (f * f) + f / 2)). 2: { replace (- (3 * (f * f * f)) / 2 + 2 * (f * f) + f / 2) with (f * (f * (1 - f) * (3 / 2) + f / 2 + / 2)) by field. apply Rmult_le_pos; lra. }
    assert (0 <= (f - 1 / 2) * (f - 1 / 2)) by apply Rle_0_sqr. lra.
  - split; [intros i; destruct i as [|[|[|[|i]]]]; cbn [keys_error]; lra|]. change (2 * k32_support keys32)%nat with 4%nat. cbn [seq tot foldr keys_error]. lra.
  - lra.
Qed.
Lemma good_linear32 : good32 linear32 linear_weight linear_error 1 u.
Proof.
  constructor.
  - cbn. lia.
  - intros f Ff Hf. destruct (C74_linear_weights f Ff Hf) as (a0 & E & F0 & W0 & W1). assert (2 ^ 24 = 16777216) as P by (simpl pow; lra). rewrite P in *.
    exists [a0; f]. split; [exact E|]. split; [reflexivity|]. intros i Hi. change (2 * k32_support linear32)%nat with 2%nat in Hi.
    destruct i as [|[|i]]; cbn [nth linear_error]; [split; [assumption|lra]|split; [assumption|]|lia]. rewrite W1 at 1. rewrite Rminus_diag_eq by reflexivity. rewrite Rabs_R0. lra.
  - intros f Hf. change (2 * k32_support linear32)%nat with 2%nat. cbn [seq tot foldr linear_weight]. rewrite !Rabs_pos_eq by lra. lra.
  - split; [intros i; destruct i as [|i]; cbn [linear_error]; lra|]. change (2 * k32_support linear32)%nat with 2%nat. cbn [seq tot foldr linear_error]. lra.
  - lra.
Qed.
Lemma eta_50 : 50 * eta <= / 2 ^ 140.
Proof.
  unfold eta. assert (2 ^ 150 = 1024 * 2 ^ 140) as ->. { change 150%nat with (10 + 140)%nat. rewrite pow_add. simpl (2 ^ 10). lra. }
  assert (0 < 2 ^ 140) by (apply pow_lt; lra). rewrite Rinv_mult. assert (0 < / 2 ^ 140) by (apply Rinv_0_lt_compat; lra). lra.
Qed.
Lemma keys_whole M : 0 <= M -> whole_error (INR 4) (5 / 4) (40 * u) M <= M / 2 ^ 16 + / 2 ^ 140.
Proof.
  intros HM. replace (INR 4) with 4 by (simpl; lra). unfold whole_error, inner_error, outer_error. cbv zeta. pose proof eta_50. pose proof eta_small as [Z0 Z1].
  assert (0 <= M * eta <= M * (u * / 1000000)) as HMe by (split; [apply Rmult_le_pos; lra|apply Rmult_le_compat_l; lra]). assert (0 <= eta * eta <= eta * (u * / 1000000)) as Hee by (split; [apply Rmult_le_pos; lra|apply Rmult_le_compat_l; lra]).
  assert (2 ^ 16 = 65536) as -> by (simpl pow; lra). lra.
Qed.
Lemma linear_whole M : 0 <= M -> whole_error (INR 2) 1 u M <= M / 2 ^ 20 + / 2 ^ 140.
Proof.
  intros HM. change (INR 2) with 2. unfold whole_error, inner_error, outer_error. cbv zeta. pose proof eta_50. pose proof eta_small as [Z0 Z1].
  assert (0 <= M * eta <= M * (u * / 1000000)) as HMe by (split; [apply Rmult_le_pos; lra|apply Rmult_le_compat_l; lra]). assert (0 <= eta * eta <= eta * (u * / 1000000)) as Hee by (split; [apply Rmult_le_pos; lra|apply Rmult_le_compat_l; lra]).
  assert (2 ^ 20 = 1048576) as -> by (simpl pow; lra). lra.
Qed.

(** Cubic interpolation of samples of at most [M] in size: never undefined, and every result is a number within M / 2^16 of the exact interpolation. *)
Theorem C74_keys_interpolation vd arr n1 n2 n3 x1 x2 o1 f1 o2 f2 start delta n (o3 : nat -> nat) (f3 : nat -> R) M :
  api_array vd arr -> a_shape arr = [n1; n2; n3] -> position x1 o1 f1 -> position x2 o2 f2 -> room 2 n1 o1 -> room 2 n2 o2 ->
  (forall s, (s < n)%nat -> position (inner_ind32 start delta s) (o3 s) (f3 s) /\ room 2 n3 (o3 s)) ->
  0 <= M <= 2 ^ 100 -> (forall i j k c, (i < n1)%nat -> (j < n2)%nat -> (k < n3)%nat -> (c < vd)%nat -> bounded_by M (component vd arr [i; j; k] c)) ->
  exists out, interpolate32 keys32 vd arr (replicate n (replicate vd zero32)) x1 x2 start delta n = Some out /\ length out = n /\
    forall s, (s < n)%nat -> exists row, out !! s = Some row /\ length row = vd /\ forall c, (c < vd)%nat -> exists y, row !! c = Some y /\ is_finite y = true /\
      Rabs (B2R y - exact_value 4 keys_weight f1 f2 (f3 s) (fun i j k => B2R (component vd arr [o1 - 1 + i; o2 - 1 + j; o3 s - 1 + k]%nat c))) <= M / 2 ^ 16 + / 2 ^ 140.
Proof.
  intros Ha Hsh H1 H2 R1 R2 Hs HM Hb. destruct (any_interpolation _ _ _ _ _ good_keys32 vd arr n1 n2 n3 x1 x2 o1 f1 o2 f2 start delta n o3 f3 M Ha Hsh H1 H2 R1 R2 Hs HM Hb) as (out & A & B & C).
  exists out. split; [exact A|]. split; [exact B|]. intros s Hsn. destruct (C s Hsn) as (row & D & E & F). exists row. split; [exact D|]. split; [exact E|]. intros c Hc. destruct (F c Hc) as (y & G & Hf & Hv). exists y. split; [exact G|]. split; [exact Hf|].
  eapply Rle_trans; [exact Hv|]. apply keys_whole. lra.
Qed.
Print Assumptions C74_keys_interpolation.
(** The same for linear interpolation, with M / 2^20. *)
Theorem C74_linear_interpolation vd arr n1 n2 n3 x1 x2 o1 f1 o2 f2 start delta n (o3 : nat -> nat) (f3 : nat -> R) M :
  api_array vd arr -> a_shape arr = [n1; n2; n3] -> position x1 o1 f1 -> position x2 o2 f2 -> room 1 n1 o1 -> room 1 n2 o2 ->
  (forall s, (s < n)%nat -> position (inner_ind32 start delta s) (o3 s) (f3 s) /\ room 1 n3 (o3 s)) ->
  0 <= M <= 2 ^ 100 -> (forall i j k c, (i < n1)%nat -> (j < n2)%nat -> (k < n3)%nat -> (c < vd)%nat -> bounded_by M (component vd arr [i; j; k] c)) ->
  exists out, interpolate32 linear32 vd arr (replicate n (replicate vd zero32)) x1 x2 start delta n = Some out /\ length out = n /\
    forall s, (s < n)%nat -> exists row, out !! s = Some row /\ length row = vd /\ forall c, (c < vd)%nat -> exists y, row !! c = Some y /\ is_finite y = true /\
      Rabs (B2R y - exact_value 2 linear_weight f1 f2 (f3 s) (fun i j k => B2R (component vd arr [o1 + i; o2 + j; o3 s + k]%nat c))) <= M / 2 ^ 20 + / 2 ^ 140.
Proof.
  intros Ha Hsh H1 H2 R1 R2 Hs HM Hb. destruct (any_interpolation _ _ _ _ _ good_linear32 vd arr n1 n2 n3 x1 x2 o1 f1 o2 f2 start delta n o3 f3 M Ha Hsh H1 H2 R1 R2 Hs HM Hb) as (out & A & B & C).
  exists out. split; [exact A|]. split; [exact B|]. intros s Hsn. destruct (C s Hsn) as (row & D & E & F). exists row. split; [exact D|]. split; [exact E|]. intros c Hc. destruct (F c Hc) as (y & G & Hf & Hv). exists y. split; [exact G|]. split; [exact Hf|].
  change (k32_support linear32 - 1)%nat with 0%nat in Hv. rewrite !Nat.sub_0_r in Hv. eapply Rle_trans; [exact Hv|]. apply linear_whole. lra.
Qed.
Print Assumptions C74_linear_interpolation.
