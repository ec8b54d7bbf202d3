(** C64: the incomplete gamma function. *)
From Coq Require Import Reals Lra Lia Arith ZArith.
From Coquelicot Require Import Coquelicot.
From Verif Require Import GammaModel GammaSpec GammaProofs GammaProofs2.
Local Open Scope R_scope.

Lemma upper_gamma_unique n z v w : upper_gamma n z v -> upper_gamma n z w -> v = w.
Proof. intros H1 H2. rewrite <- (is_RInt_gen_unique _ _ H1). exact (is_RInt_gen_unique _ _ H2). Qed.

(** The function ends, and with a value that is close to the integral: from above and relative to the lower incomplete gamma function where the series is used, relative to the value itself
    where the continued fraction is used. *)
Theorem C64_incomplete_gamma lg n z tol : log_gamma lg -> 0 <= z -> 0 < tol <= 1 ->
  exists N v g, (forall fuel, (N <= fuel)%nat -> incomplete_gamma lg fuel (INR (n + 1)) z tol = Some v) /\ upper_gamma n z g /\
    (z <= 1 \/ z < INR (n + 1) -> 0 <= v - g <= tol * (INR (n + 1) / 2) * (INR (fact n) - g)) /\
    (1 < z -> INR (n + 1) <= z -> 0 < v /\ Rabs (v - g) <= tol * v).
Proof.
  intros Hlg Hz Htol. assert (1 <= INR (n + 1)) as Ha by apply a_pos. assert (INR (n + 1) = INR n + 1) as Ea by (rewrite plus_INR; reflexivity).
  destruct (Rlt_dec 0 z) as [Hp|Hp].
  - destruct (Rle_dec z 1) as [H1|H1]; [|destruct (Rlt_dec z (INR (n + 1))) as [H2|H2]].
    1,2: destruct (series_value n z tol Hp ltac:(tauto) (proj1 Htol) lg Hlg) as (N & v & Hv & He); exists N, v, (gam n z); (split; [|split; [apply gam_integral|split; [intros _; exact He|lra]]]);
      intros fuel Hf; unfold incomplete_gamma; destruct (Rlt_dec (INR (n + 1)) 0); [lra|]; destruct (Rlt_dec z 0); [lra|]; destruct (Rle_dec z 1); try contradiction; try (destruct (Rlt_dec z (INR (n + 1))); [|contradiction]); apply Hv, Hf.
    destruct (fraction_value z Hp n tol ltac:(lra) Htol) as (N & v & Hv & He). exists N, v, (gam n z). split; [|split; [apply gam_integral|split; [lra|intros _ _; exact He]]].
    intros fuel Hf. unfold incomplete_gamma. destruct (Rlt_dec (INR (n + 1)) 0); [lra|]. destruct (Rlt_dec z 0); [lra|]. destruct (Rle_dec z 1); [contradiction|]. destruct (Rlt_dec z (INR (n + 1))); [contradiction|]. apply Hv, Hf.
  - assert (z = 0) as -> by lra. exists 1%nat, (INR (fact n)), (gam n 0). split; [|split; [apply gam_integral|split; [|lra]]].
    + intros [|fuel] Hf; [lia|]. unfold incomplete_gamma. destruct (Rlt_dec (INR (n + 1)) 0); [lra|]. destruct (Rlt_dec 0 0); [lra|]. destruct (Rle_dec 0 1); [|lra].
      unfold series_expansion. cbn [series_loop]. rewrite odiv_ok by lra. rewrite zero_div, Rmult_0_r, Rplus_0_r. rewrite odiv_ok by lra. rewrite zero_div. destruct (Rlt_dec tol 0); [lra|].
      unfold exp_log. destruct (Req_EM_T 0 0); [|lra]. f_equal. rewrite Hlg, exp_ln by apply fact_pos. ring.
    + intros _. rewrite gam_at_0. lra.
Qed.
(** One bound for all arguments. *)
Theorem C64_error lg n z tol : log_gamma lg -> 0 <= z -> 0 < tol <= 1 / 2 ->
  exists N v g, (forall fuel, (N <= fuel)%nat -> incomplete_gamma lg fuel (INR (n + 1)) z tol = Some v) /\ upper_gamma n z g /\ Rabs (v - g) <= tol * (INR n + 2) * INR (fact n).
Proof.
  intros Hlg Hz Htol. destruct (C64_incomplete_gamma lg n z tol Hlg Hz ltac:(lra)) as (N & v & g & Hv & Hg & H1 & H2). exists N, v, g. split; [exact Hv|]. split; [exact Hg|].
  assert (INR (n + 1) = INR n + 1) as Ea by (rewrite plus_INR; reflexivity). pose proof (pos_INR n) as Hn. pose proof (fact_pos n) as Hf.
  assert (0 <= g <= INR (fact n)) as Hgb.
  { rewrite (upper_gamma_unique n z g (gam n z) Hg (gam_integral n z)). destruct (Rlt_dec 0 z) as [Hp|Hp]; [split; [apply Rlt_le, gam_pos, Hp|apply gam_le, Hp]|]. replace z with 0 by lra. rewrite gam_at_0. lra. }
  assert (z <= 1 \/ z < INR (n + 1) \/ (1 < z /\ INR (n + 1) <= z)) as [Hc|[Hc|[Hc1 Hc2]]] by lra.
  1,2: destruct H1 as [P1 P2]; [tauto|]; rewrite Rabs_pos_eq by exact P1; eapply Rle_trans; [exact P2|]; rewrite Ea; apply Rmult_le_compat; [apply Rmult_le_pos; lra|lra|apply Rmult_le_compat_l; lra|lra].
  destruct (H2 Hc1 Hc2) as [Hvp He]. assert (v <= 2 * g) as Hv2. { destruct (Rcase_abs (v - g)) as [Hlt|Hge]; [lra|]. rewrite Rabs_pos_eq in He by lra. assert (tol * v <= 1 / 2 * v) by (apply Rmult_le_compat_r; lra). lra. }
  eapply Rle_trans; [exact He|]. rewrite Rmult_assoc. apply Rmult_le_compat_l; [lra|]. apply Rle_trans with (2 * INR (fact n)); [lra|]. apply Rmult_le_compat_r; lra.
Qed.
Print Assumptions C64_incomplete_gamma.
Print Assumptions C64_error.

(** * The hypotheses are met. *)
Definition lg0 (x : R) : R := ln (INR (fact (Z.to_nat (Int_part x) - 1))).
Example C64_hypotheses_nonvacuous : log_gamma lg0.
Proof.
  intros k. unfold lg0. replace (Int_part (INR (k + 1))) with (Z.of_nat (k + 1)); [rewrite Nat2Z.id; f_equal; f_equal; f_equal; lia|]. rewrite INR_IZR_INZ. unfold Int_part.
  rewrite <- (tech_up (IZR (Z.of_nat (k + 1))) (Z.of_nat (k + 1) + 1)); [lia| |]; rewrite plus_IZR; lra.
Qed.
(** Both branches: the series at 2 for n = 2, the fraction at 3 for n = 2, with the tolerance of the calculator. *)
Example C64_branches_nonvacuous : (exists N v g, (forall fuel, (N <= fuel)%nat -> incomplete_gamma lg0 fuel (INR 3) 2 (1 / 1000000) = Some v) /\ upper_gamma 2 2 g /\ 0 <= v - g <= 3 / 1000000) /\
  (exists N v g, (forall fuel, (N <= fuel)%nat -> incomplete_gamma lg0 fuel (INR 3) 3 (1 / 1000000) = Some v) /\ upper_gamma 2 3 g /\ 0 < v /\ Rabs (v - g) <= 1 / 1000000 * v).
Proof.
  split.
  - destruct (C64_incomplete_gamma lg0 2 2 (1 / 1000000) C64_hypotheses_nonvacuous ltac:(lra) ltac:(lra)) as (N & v & g & H1 & H2 & H3 & _). exists N, v, g. split; [exact H1|]. split; [exact H2|].
    destruct H3 as [P1 P2]; [right; cbn; lra|]. split; [exact P1|]. assert (0 <= g). { rewrite (upper_gamma_unique 2 2 g (gam 2 2) H2 (gam_integral 2 2)). apply Rlt_le, gam_pos. lra. }
    change (INR (2 + 1)) with (1 + 1 + 1) in P2. change (INR (fact 2)) with (1 + 1) in P2. lra.
  - destruct (C64_incomplete_gamma lg0 2 3 (1 / 1000000) C64_hypotheses_nonvacuous ltac:(lra) ltac:(lra)) as (N & v & g & H1 & H2 & _ & H3). exists N, v, g. split; [exact H1|]. split; [exact H2|]. apply H3; cbn; lra.
Qed.
