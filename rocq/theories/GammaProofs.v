(** Proofs about the incomplete gamma function (C64). *)
From Coq Require Import Reals Lra Lia Arith.
From Coquelicot Require Import Coquelicot.
From Verif Require Import GammaModel GammaSpec.
Local Open Scope R_scope.

Lemma odiv_ok x y : y <> 0 -> odiv x y = Some (x / y).
Proof. intros H. unfold odiv. destruct (Req_EM_T y 0); [contradiction|reflexivity]. Qed.

(** * The exponential series *)
Definition term (k : nat) (z : R) : R := / INR (fact k) * z ^ k.
Definition expo (M : nat) (z : R) : R := sum_f_R0 (fun k => term k z) M.
Lemma expo_S M z : expo (S M) z = expo M z + term (S M) z.
Proof. reflexivity. Qed.
Lemma fact_pos k : 0 < INR (fact k).
Proof. apply lt_0_INR, lt_O_fact. Qed.
Lemma fact_S_R k : INR (fact (S k)) = INR (S k) * INR (fact k).
Proof. rewrite fact_simpl. apply mult_INR. Qed.
Lemma term_S k z : term (S k) z = term k z * (z / INR (S k)).
Proof.
  unfold term. rewrite fact_S_R. pose proof (fact_pos k). assert (INR (S k) <> 0) by (apply not_0_INR; lia). cbn [pow]. set (y := INR (S k)) in *. clearbody y. field. repeat split; first [assumption|lra].
Qed.
Lemma term_pos k z : 0 < z -> 0 < term k z.
Proof. intros Hz. apply Rmult_lt_0_compat; [apply Rinv_0_lt_compat, fact_pos|]. apply pow_lt, Hz. Qed.
Lemma term_0 z : term 0 z = 1.
Proof. unfold term. cbn. lra. Qed.
Lemma expo_limit z : Un_cv (fun M => expo M z) (exp z).
Proof. unfold expo, term, exp. destruct (exist_exp z) as [l Hl]. exact Hl. Qed.
Lemma expo_growing z : 0 < z -> Un_growing (fun M => expo M z).
Proof. intros Hz M. rewrite expo_S. pose proof (term_pos (S M) z Hz). lra. Qed.
Lemma expo_le z M : 0 < z -> expo M z <= exp z.
Proof. intros Hz. exact (growing_ineq _ _ (expo_growing z Hz) (expo_limit z) M). Qed.
Lemma expo_pos z M : 0 < z -> 0 < expo M z.
Proof. intros Hz. induction M as [|M IH]; [unfold expo; cbn; rewrite term_0; lra|]. rewrite expo_S. pose proof (term_pos (S M) z Hz). lra. Qed.
Lemma expo_tail_partial z M L : 0 < z < INR M + 1 ->
  expo (M + L) z + term (M + L) z * (z / (INR (M + L) + 1 - z)) <= expo M z + term M z * (z / (INR M + 1 - z)).
Proof.
  intros Hz. induction L as [|L IH]; [rewrite Nat.add_0_r; lra|]. rewrite Nat.add_succ_r, expo_S, term_S. eapply Rle_trans; [|exact IH].
  set (m := (M + L)%nat) in *. assert (INR M <= INR m) as Hm by (apply le_INR; lia). rewrite S_INR. set (x := INR m) in *. pose proof (term_pos m z (proj1 Hz)) as Ht. pose proof (pos_INR M).
  assert (z / (x + 1) + z / (x + 1) * (z / (x + 1 + 1 - z)) <= z / (x + 1 - z)) as H'.
  { replace (z / (x + 1) + z / (x + 1) * (z / (x + 1 + 1 - z))) with (z * ((x + 2) / ((x + 1) * (x + 2 - z)))) by (field; lra). unfold Rdiv at 2. apply Rmult_le_compat_l; [lra|].
    apply Rmult_le_reg_r with ((x + 1) * (x + 2 - z)); [apply Rmult_lt_0_compat; lra|]. unfold Rdiv. rewrite Rmult_assoc, Rinv_l by (apply Rgt_not_eq, Rmult_lt_0_compat; lra).
    apply Rmult_le_reg_l with (x + 1 - z); [lra|]. rewrite <- (Rmult_assoc _ (/ _)), Rinv_r by lra. nra. }
  apply Rmult_le_compat_l with (r := term m z) in H'; lra.
Qed.
Lemma expo_tail z M : 0 < z < INR M + 1 -> exp z - expo M z <= term M z * (z / (INR M + 1 - z)).
Proof.
  intros Hz. assert (exp z <= expo M z + term M z * (z / (INR M + 1 - z))); [|lra].
  apply (@Rle_cv_lim (fun L => expo (M + L) z) (fun _ => expo M z + term M z * (z / (INR M + 1 - z)))).
  - intros L. pose proof (expo_tail_partial z M L Hz) as H. assert (0 <= term (M + L) z * (z / (INR (M + L) + 1 - z))); [|lra].
    apply Rmult_le_pos; [apply Rlt_le, term_pos, Hz|]. apply Rmult_le_pos; [lra|]. apply Rlt_le, Rinv_0_lt_compat. assert (INR M <= INR (M + L)) by (apply le_INR; lia). lra.
  - intros eps He. destruct (expo_limit z eps He) as [N HN]. exists N. intros L HL. apply HN. lia.
  - intros eps He. exists 0%nat. intros. rewrite R_dist_eq. exact He.
Qed.

(** * The closed form *)
Definition gam (n : nat) (z : R) : R := INR (fact n) * (exp (- z) * expo n z).
Lemma gam_0 z : gam 0 z = exp (- z).
Proof. unfold gam, expo. cbn [fact sum_f_R0]. rewrite term_0. change (INR 1) with 1. lra. Qed.
Lemma gam_S n z : gam (S n) z = z ^ S n * exp (- z) + INR (S n) * gam n z.
Proof. unfold gam. rewrite expo_S, fact_S_R. unfold term. rewrite fact_S_R. pose proof (fact_pos n). assert (INR (S n) <> 0) by (apply not_0_INR; lia). set (y := INR (S n)) in *. clearbody y. field. repeat split; first [assumption|lra]. Qed.
Lemma gam_derive n z : is_derive (gam n) z (- (z ^ n * exp (- z))).
Proof.
  induction n as [|n IH].
  - apply (is_derive_ext (fun z => exp (- z))); [intros t; symmetry; apply gam_0|]. auto_derive; [exact I|]. cbn. ring.
  - apply (is_derive_ext (fun z => z ^ S n * exp (- z) + INR (S n) * gam n z)); [intros t; symmetry; apply gam_S|].
    replace (- (z ^ S n * exp (- z))) with ((INR (S n) * z ^ n * exp (- z) - z ^ S n * exp (- z)) + INR (S n) * - (z ^ n * exp (- z))) by ring.
    apply (is_derive_plus (fun z => z ^ S n * exp (- z)) (fun z => INR (S n) * gam n z)).
    + auto_derive; [exact I|]. change (match n with 0%nat => 1 | S _ => INR n + 1 end) with (INR (S n)). cbn [Nat.pred pow]. ring.
    + apply is_derive_scal, IH.
Qed.
Lemma pow_exp_small n z : 0 < z -> 0 <= z ^ n * exp (- z) <= INR (fact (S n)) / z.
Proof.
  intros Hz. split; [apply Rmult_le_pos; [apply pow_le; lra|apply Rlt_le, exp_pos]|]. pose proof (expo_le z (S n) Hz) as H. rewrite expo_S in H. pose proof (expo_pos z n Hz).
  unfold term in H. pose proof (fact_pos (S n)) as Hf. rewrite exp_Ropp. pose proof (exp_pos z) as He.
  assert (z ^ S n <= exp z * INR (fact (S n))) as Hx. { apply Rmult_le_reg_l with (/ INR (fact (S n))); [apply Rinv_0_lt_compat, Hf|]. replace (/ INR (fact (S n)) * (exp z * INR (fact (S n)))) with (exp z) by (field; lra). lra. }
  cbn [pow] in Hx. apply Rmult_le_reg_r with (exp z * z); [apply Rmult_lt_0_compat; lra|]. replace (z ^ n * / exp z * (exp z * z)) with (z * z ^ n) by (field; lra).
  replace (INR (fact (S n)) / z * (exp z * z)) with (exp z * INR (fact (S n))) by (field; lra). exact Hx.
Qed.
Lemma gam_limit n : is_lim (gam n) p_infty 0.
Proof.
  induction n as [|n IH].
  - apply (is_lim_ext (fun z => exp (- z))); [intros t; symmetry; apply gam_0|]. apply (is_lim_comp exp Ropp p_infty 0 m_infty).
    + apply is_lim_exp_m.
    + change m_infty with (Rbar_opp p_infty). apply is_lim_opp, is_lim_id.
    + exists 0. intros y _. discriminate.
  - apply (is_lim_ext (fun z => z ^ S n * exp (- z) + INR (S n) * gam n z)); [intros t; symmetry; apply gam_S|].
    apply (is_lim_plus _ _ _ 0 0); [|replace (Finite 0) with (Rbar_mult (INR (S n)) 0) by (cbn; f_equal; ring); apply is_lim_scal_l, IH|unfold is_Rbar_plus; cbn; f_equal; f_equal; ring].
    apply (is_lim_le_le_loc (fun _ => 0) (fun z => INR (fact (S (S n))) / z)).
    + exists 0. intros z Hz. apply pow_exp_small, Hz.
    + apply is_lim_const.
    + replace (Finite 0) with (Rbar_mult (INR (fact (S (S n)))) (Rbar_inv p_infty)) by (cbn; f_equal; ring). apply is_lim_scal_l. apply is_lim_inv; [apply is_lim_id|discriminate].
Qed.
Lemma gam_integral n z : upper_gamma n z (gam n z).
Proof.
  assert (forall x, is_derive (fun t => - gam n t) x (x ^ n * exp (- x))) as Hd.
  { intros x. replace (x ^ n * exp (- x)) with (opp (- (x ^ n * exp (- x)))) by (unfold opp; cbn; ring). apply (is_derive_opp (gam n)), gam_derive. }
  unfold upper_gamma. assert (is_RInt_gen (Derive (fun t => - gam n t)) (at_point z) (Rbar_locally p_infty) (0 - - gam n z)) as H.
  { apply is_RInt_gen_Derive.
    - apply filter_forall. intros ab x _. exists (x ^ n * exp (- x)). apply Hd.
    - apply filter_forall. intros ab x _. apply (continuous_ext (fun t => t ^ n * exp (- t))).
      + intros t. symmetry. apply is_derive_unique. apply Hd.
      + apply (@ex_derive_continuous R_AbsRing R_NormedModule (fun t : R => t ^ n * exp (- t))). auto_derive. exact I.
    - intros P HP. unfold filtermap, at_point. exact (locally_singleton _ _ HP).
    - replace (Finite 0) with (Rbar_opp 0) by (cbn; f_equal; ring). replace 0 with (- 0) by ring. apply (is_lim_opp (gam n) p_infty 0), gam_limit. }
  replace (gam n z) with (0 - - gam n z) by ring. revert H. apply is_RInt_gen_ext. apply filter_forall. intros ab x _.
  apply is_derive_unique. apply Hd.
Qed.
Lemma gam_pos n z : 0 < z -> 0 < gam n z.
Proof. intros Hz. apply Rmult_lt_0_compat; [apply fact_pos|]. apply Rmult_lt_0_compat; [apply exp_pos|apply expo_pos, Hz]. Qed.
Lemma gam_at_0 n : gam n 0 = INR (fact n).
Proof.
  unfold gam. replace (expo n 0) with 1. 2: { induction n as [|n IH]; [unfold expo; cbn; rewrite term_0; reflexivity|]. rewrite expo_S, <- IH. unfold term. cbn [pow]. ring. }
  rewrite Ropp_0, exp_0. ring.
Qed.
Lemma gam_le n z : 0 < z -> gam n z <= INR (fact n).
Proof.
  intros Hz. unfold gam. rewrite <- (Rmult_1_r (INR (fact n))) at 2. apply Rmult_le_compat_l; [apply Rlt_le, fact_pos|]. rewrite exp_Ropp. pose proof (exp_pos z). apply Rmult_le_reg_l with (exp z); [lra|].
  rewrite <- Rmult_assoc, Rinv_r by lra. pose proof (expo_le z n Hz). lra.
Qed.
