(** Proofs about the spectrum of the filter (C66). *)
From Coq Require Import Reals Lra Lia Arith.
From Coquelicot Require Import Coquelicot.
From Verif Require Import GammaModel GammaSpec GammaProofs DipoleSpec DipoleProofs SamplingSpec.
Local Open Scope R_scope.

Section spectrum.
Context (w o : R) (Hw : 0 < w).
(** Real and imaginary part of the antiderivative of t^k exp(- (w - i o) t). *)
Fixpoint anti (k : nat) (t : R) : R * R :=
  let '(a, b) := match k with
    | O => (- (exp (- (w * t)) * cos (o * t)), - (exp (- (w * t)) * sin (o * t)))
    | S k' => let '(p, q) := anti k' t in (INR k * p - t ^ k * exp (- (w * t)) * cos (o * t), INR k * q - t ^ k * exp (- (w * t)) * sin (o * t))
    end in ((a * w - b * o) / (w ^ 2 + o ^ 2), (a * o + b * w) / (w ^ 2 + o ^ 2)).
Lemma norm_pos : 0 < w ^ 2 + o ^ 2.
Proof using Hw. pose proof (pow_lt w 2 Hw). pose proof (pow2_ge_0 o). lra. Qed.

Lemma anti_S k t : anti (S k) t =
  let a := INR (S k) * fst (anti k t) - t ^ S k * exp (- (w * t)) * cos (o * t) in let b := INR (S k) * snd (anti k t) - t ^ S k * exp (- (w * t)) * sin (o * t) in
  ((a * w - b * o) / (w ^ 2 + o ^ 2), (a * o + b * w) / (w ^ 2 + o ^ 2)).
Proof using. cbn [anti]. destruct (anti k t) as [p q]. reflexivity. Qed.

Lemma osc_derive k t : is_derive (fun t => t ^ S k * exp (- (w * t)) * cos (o * t)) t (INR (S k) * t ^ k * exp (- (w * t)) * cos (o * t) + t ^ S k * exp (- (w * t)) * (- w * cos (o * t) - o * sin (o * t))) /\
  is_derive (fun t => t ^ S k * exp (- (w * t)) * sin (o * t)) t (INR (S k) * t ^ k * exp (- (w * t)) * sin (o * t) + t ^ S k * exp (- (w * t)) * (- w * sin (o * t) + o * cos (o * t))).
Proof using. split; auto_derive; try exact I; change (Nat.pred (S k)) with k; cbn [pow].
  all: change (match k with 0%nat => 1 | S _ => INR k + 1 end) with (INR (S k)); ring.
Qed.

Lemma anti_derive k t : is_derive (fun t => fst (anti k t)) t (t ^ k * exp (- (w * t)) * cos (o * t)) /\ is_derive (fun t => snd (anti k t)) t (t ^ k * exp (- (w * t)) * sin (o * t)).
Proof using Hw.
  pose proof norm_pos as Hn. revert t. induction k as [|k IH]; intros t.
  - cbn [anti fst snd]. split; auto_derive; try exact I; cbn [pow]; set (e := exp _); set (c := cos _); set (s := sin _); clearbody e c s; field; cbn [pow] in Hn; lra.
  - destruct (IH t) as [H1 H2]. destruct (osc_derive k t) as [H3 H4]. set (m := w ^ 2 + o ^ 2) in *.
    pose proof (is_derive_minus _ _ _ _ _ (is_derive_scal _ _ (INR (S k)) _ H1) H3) as HA. pose proof (is_derive_minus _ _ _ _ _ (is_derive_scal _ _ (INR (S k)) _ H2) H4) as HB.
    cbv beta in HA, HB. split.
    + apply (is_derive_ext (fun t => w / m * minus (INR (S k) * fst (anti k t)) (t ^ S k * exp (- (w * t)) * cos (o * t)) + - (o / m) * minus (INR (S k) * snd (anti k t)) (t ^ S k * exp (- (w * t)) * sin (o * t)))).
      { intros x. rewrite anti_S. cbn [fst snd]. unfold minus, plus, opp. cbn -[INR pow m]. fold m. field. lra. }
      evar_last; [apply (is_derive_plus (fun t => w / m * _) (fun t => - (o / m) * _)); [apply is_derive_scal, HA|apply is_derive_scal, HB]|].
      unfold minus, plus, opp. cbn -[INR pow m]. set (y := INR (S k)). set (tk := t ^ k). replace (t ^ S k) with (t * tk) by reflexivity. set (e := exp _). set (c := cos _). set (s := sin _). unfold m. clearbody y tk e c s. field. exact (Rgt_not_eq _ _ Hn).
    + apply (is_derive_ext (fun t => o / m * minus (INR (S k) * fst (anti k t)) (t ^ S k * exp (- (w * t)) * cos (o * t)) + w / m * minus (INR (S k) * snd (anti k t)) (t ^ S k * exp (- (w * t)) * sin (o * t)))).
      { intros x. rewrite anti_S. cbn [fst snd]. unfold minus, plus, opp. cbn -[INR pow m]. fold m. field. lra. }
      evar_last; [apply (is_derive_plus (fun t => o / m * _) (fun t => w / m * _)); [apply is_derive_scal, HA|apply is_derive_scal, HB]|].
      unfold minus, plus, opp. cbn -[INR pow m]. set (y := INR (S k)). set (tk := t ^ k). replace (t ^ S k) with (t * tk) by reflexivity. set (e := exp _). set (c := cos _). set (s := sin _). unfold m. clearbody y tk e c s. field. exact (Rgt_not_eq _ _ Hn).
Qed.

Lemma small_limit k (f : R -> R) : (forall x, Rabs (f x) <= 1) -> is_lim (fun t => t ^ k * exp (- (w * t)) * f t) p_infty 0.
Proof using Hw.
  intros Hf. assert (forall t, 0 < t -> Rabs (t ^ k * exp (- (w * t)) * f t) <= INR (fact (S k)) / w ^ S k * / t) as Hb.
  { intros t Ht. assert (0 < w * t) as Hwt by (apply Rmult_lt_0_compat; assumption). destruct (pow_exp_small k (w * t) Hwt) as [H1 H2]. rewrite Rabs_mult.
    assert (0 < t ^ k * exp (- (w * t))) as Hp by (apply Rmult_lt_0_compat; [apply pow_lt, Ht|apply exp_pos]). rewrite (Rabs_pos_eq (t ^ k * _)) by lra.
    apply Rle_trans with (t ^ k * exp (- (w * t)) * 1); [apply Rmult_le_compat_l; [lra|apply Hf]|]. rewrite Rmult_1_r. rewrite Rpow_mult_distr in H2. assert (0 < w ^ k) as Hwk by (apply pow_lt, Hw).
    apply Rmult_le_reg_l with (w ^ k); [exact Hwk|]. rewrite <- Rmult_assoc. eapply Rle_trans; [exact H2|]. right. set (x := INR (fact (S k))). cbn [pow]. set (y := w ^ k) in *. clearbody x y. field. repeat split; lra. }
  assert (is_lim (fun t => INR (fact (S k)) / w ^ S k * / t) p_infty 0) as Hl.
  { replace (Finite 0) with (Rbar_mult (INR (fact (S k)) / w ^ S k) (Rbar_inv p_infty)) by (cbn -[fact pow]; f_equal; ring). apply is_lim_scal_l. apply is_lim_inv; [apply is_lim_id|discriminate]. }
  apply (is_lim_le_le_loc (fun t => - (INR (fact (S k)) / w ^ S k * / t)) (fun t => INR (fact (S k)) / w ^ S k * / t)).
  - exists 0. intros t Ht. specialize (Hb t Ht). apply Rabs_le_between in Hb. exact Hb.
  - replace (Finite 0) with (Rbar_opp 0) by (cbn; f_equal; ring). apply (is_lim_opp (fun t => INR (fact (S k)) / w ^ S k * / t) p_infty 0), Hl.
  - exact Hl.
Qed.
Lemma lim_combine (f g : R -> R) a b : is_lim f p_infty 0 -> is_lim g p_infty 0 -> is_lim (fun t => a * f t + b * g t) p_infty 0.
Proof using.
  intros H1 H2. apply (is_lim_plus _ _ _ 0 0); [| |unfold is_Rbar_plus; cbn; do 2 f_equal; ring].
  - replace (Finite 0) with (Rbar_mult a 0) by (cbn; f_equal; ring). apply is_lim_scal_l, H1.
  - replace (Finite 0) with (Rbar_mult b 0) by (cbn; f_equal; ring). apply is_lim_scal_l, H2.
Qed.
Lemma cos_small x : Rabs (cos (o * x)) <= 1.
Proof using. apply Rabs_le. pose proof (COS_bound (o * x)). lra. Qed.
Lemma sin_small x : Rabs (sin (o * x)) <= 1.
Proof using. apply Rabs_le. pose proof (SIN_bound (o * x)). lra. Qed.
Lemma anti_limit k : is_lim (fun t => fst (anti k t)) p_infty 0 /\ is_lim (fun t => snd (anti k t)) p_infty 0.
Proof using Hw.
  pose proof norm_pos as Hn. set (m := w ^ 2 + o ^ 2) in *. induction k as [|k [I1 I2]].
  - pose proof (small_limit 0 (fun t => cos (o * t)) cos_small) as L1. pose proof (small_limit 0 (fun t => sin (o * t)) sin_small) as L2. split.
    + eapply is_lim_ext; [|exact (lim_combine _ _ (- (w / m)) (o / m) L1 L2)]. intros t. cbv beta. rewrite pow_O. cbn [anti fst snd]. fold m. field. lra.
    + eapply is_lim_ext; [|exact (lim_combine _ _ (- (o / m)) (- (w / m)) L1 L2)]. intros t. cbv beta. rewrite pow_O. cbn [anti fst snd]. fold m. field. lra.
  - pose proof (small_limit (S k) (fun t => cos (o * t)) cos_small) as L1. pose proof (small_limit (S k) (fun t => sin (o * t)) sin_small) as L2.
    pose proof (lim_combine _ _ (INR (S k)) (- (1)) I1 L1) as A. pose proof (lim_combine _ _ (INR (S k)) (- (1)) I2 L2) as B. split.
    + eapply is_lim_ext; [|exact (lim_combine _ _ (w / m) (- (o / m)) A B)]. intros t. rewrite anti_S. cbn [fst snd]. fold m. field. lra.
    + eapply is_lim_ext; [|exact (lim_combine _ _ (o / m) (w / m) A B)]. intros t. rewrite anti_S. cbn [fst snd]. fold m. field. lra.
Qed.
(** The modulus at time 0. *)
Lemma anti_norm k : fst (anti k 0) ^ 2 + snd (anti k 0) ^ 2 = INR (fact k) ^ 2 / (w ^ 2 + o ^ 2) ^ S k.
Proof using Hw.
  pose proof norm_pos as Hn. set (m := w ^ 2 + o ^ 2) in *. induction k as [|k IH].
  - cbn [anti fst snd fact]. rewrite !Rmult_0_r, Ropp_0, exp_0, cos_0, sin_0. fold m. replace (INR 1) with 1 by reflexivity. rewrite pow_1.
    match goal with |- ?l = _ => replace l with (m / m ^ 2) by (unfold m at 1; field; lra) end. field. lra.
  - rewrite anti_S. cbn [fst snd]. fold m. replace (0 ^ S k) with 0 by (cbn; ring). rewrite !Rmult_0_l, !Rminus_0_r. set (p := fst (anti k 0)) in *. set (q := snd (anti k 0)) in *. rewrite fact_S_R. set (y := INR (S k)). set (f := INR (fact k)) in *.
    match goal with |- ?l = _ => replace l with (y ^ 2 * (p ^ 2 + q ^ 2) / m) end. 2: { replace (y ^ 2 * (p ^ 2 + q ^ 2) / m) with (y ^ 2 * (p ^ 2 + q ^ 2) * m / m ^ 2) by (field; lra). unfold m at 1. clearbody m p q y. field. lra. }
    rewrite IH. assert (0 < m ^ S k) as Hp by (apply pow_lt, Hn). change (m ^ S (S k)) with (m * m ^ S k). set (z := m ^ S k) in *. clearbody y f z m. field. split; lra.
Qed.
(** The integral from 0 to infinity of a function with an antiderivative that vanishes at infinity. *)
Lemma tail_integral (F f : R -> R) : (forall t, is_derive F t (f t)) -> (forall t, continuous f t) -> is_lim F p_infty 0 -> is_RInt_gen f (at_point 0) (Rbar_locally p_infty) (- F 0).
Proof using.
  intros Hd Hc Hl. assert (is_RInt_gen (Derive F) (at_point 0) (Rbar_locally p_infty) (0 - F 0)) as H.
  { apply is_RInt_gen_Derive.
    - apply filter_forall. intros ab x _. exists (f x). apply Hd.
    - apply filter_forall. intros ab x _. apply (continuous_ext f); [intros t; symmetry; apply is_derive_unique, Hd|apply Hc].
    - intros P HP. unfold filtermap, at_point. exact (locally_singleton _ _ HP).
    - exact Hl. }
  replace (- F 0) with (0 - F 0) by ring. revert H. apply is_RInt_gen_ext. apply filter_forall. intros ab x _. apply is_derive_unique, Hd.
Qed.
Lemma transform k : exists c s, is_RInt_gen (fun t => t ^ k * exp (- (w * t)) * cos (o * t)) (at_point 0) (Rbar_locally p_infty) c /\
  is_RInt_gen (fun t => t ^ k * exp (- (w * t)) * sin (o * t)) (at_point 0) (Rbar_locally p_infty) s /\ c ^ 2 + s ^ 2 = INR (fact k) ^ 2 / (w ^ 2 + o ^ 2) ^ S k.
Proof using Hw.
  exists (- fst (anti k 0)), (- snd (anti k 0)). split; [|split].
  - apply (tail_integral (fun t => fst (anti k t))); [intros t; apply anti_derive| |apply anti_limit]. intros t. apply (@ex_derive_continuous R_AbsRing R_NormedModule (fun t : R => t ^ k * exp (- (w * t)) * cos (o * t))). auto_derive. exact I.
  - apply (tail_integral (fun t => snd (anti k t))); [intros t; apply anti_derive| |apply anti_limit]. intros t. apply (@ex_derive_continuous R_AbsRing R_NormedModule (fun t : R => t ^ k * exp (- (w * t)) * sin (o * t))). auto_derive. exact I.
  - rewrite <- anti_norm. ring.
Qed.
End spectrum.

(** The power that the filter passes. *)
Lemma filter_power n tp f : (0 < n)%nat -> 0 < tp -> power_at (impulse_response n tp) f (/ (1 + (2 * PI * f * tp / INR n) ^ 2) ^ S n).
Proof.
  intros Hn Htp. assert (0 < INR n) as Hn' by (apply lt_0_INR, Hn). pose proof (w_pos n tp Hn Htp) as Hw. pose proof (fact_pos n) as Hf. set (w := INR n / tp) in *. set (o := 2 * PI * f).
  destruct (transform w o Hw n) as (c & s & Hc & Hs & E). set (k := w ^ S n / INR (fact n)). exists (k * c), (k * s).
  assert (forall g : R -> R, forall x, is_RInt_gen (fun t => t ^ n * exp (- (w * t)) * g (o * t)) (at_point 0) (Rbar_locally p_infty) x -> is_RInt_gen (fun t => impulse_response n tp t * g (o * t)) (at_point 0) (Rbar_locally p_infty) (k * x)) as Hg.
  { intros g x H. apply (is_RInt_gen_scal _ k) in H. revert H. apply is_RInt_gen_ext. exists (fun a => a = 0) (fun b => 0 < b); [reflexivity|exists 0; intros; assumption|].
    intros a b -> Hb y Hy. cbn [fst snd] in Hy. rewrite Rmin_left in Hy by lra. unfold impulse_response. destruct (Rle_dec y 0); [lra|]. unfold scal. cbn -[pow fact INR]. unfold mult. cbn -[pow fact INR]. fold w k.
    replace (INR n * y / tp) with (w * y) by (unfold w; field; lra). ring. }
  split; [exact (Hg cos c Hc)|]. split; [exact (Hg sin s Hs)|].
  replace ((k * c) ^ 2 + (k * s) ^ 2) with (k ^ 2 * (c ^ 2 + s ^ 2)) by ring. rewrite E. clear E Hc Hs Hg. assert (0 < w ^ 2 + o ^ 2) as Hp by (apply norm_pos, Hw).
  replace (1 + (o * tp / INR n) ^ 2) with ((w ^ 2 + o ^ 2) / w ^ 2) by (unfold w; field; lra). unfold Rdiv at 1. rewrite Rpow_mult_distr, Rinv_mult, <- Rinv_pow by (apply pow_nonzero; lra). rewrite Rinv_inv. unfold k.
  assert ((w ^ 2) ^ S n = (w ^ S n) ^ 2) as ->. { rewrite <- !pow_mult. f_equal. lia. }
  set (a := w ^ S n). assert (0 < (w ^ 2 + o ^ 2) ^ S n) as Hb by (apply pow_lt, Hp). set (b := (w ^ 2 + o ^ 2) ^ S n) in *. set (x := INR (fact n)) in *. clearbody a b x. field. lra.
Qed.
