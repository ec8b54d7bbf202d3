(** C74: the loops of the interpolation in 32-bit floats, and the rounding errors of sums of products. *)
From stdpp Require Import base list list_numbers numbers option.
From Coq Require Import Reals ZArith Bool Lra Lia.
From Flocq Require Import Core IEEE754.BinarySingleNaN.
From Verif Require Import IndexSpec LoopsModel LoopsProofs NDArrayModel NDArrayProofs NDArrayOps NDArrayProps InterpModel.
From Verif Require Import AntennaModel AntennaSpec AntennaProps DiscreteModel DiscreteSpec DiscreteProps Interp32Model Interp32Spec Interp32Weights.
Local Open Scope R_scope.
Local Notation fexp32 := (FLT_exp (-149) 24).
Local Notation rnd32 := (round radix2 fexp32 ZnearestE).
Local Instance valid32' : Valid_exp fexp32. Proof. apply FLT_exp_valid. reflexivity. Qed.
Local Notation u := (/ 16777216).

(** * Sums over lists *)
Definition tot {I} (L : list I) (g : I -> R) : R := foldr (fun i a => g i + a) 0 L.
Lemma tot_nil {I} (g : I -> R) : tot [] g = 0. Proof. reflexivity. Qed.
Lemma tot_cons {I} (i : I) (L : list I) g : tot (i :: L) g = g i + tot L g. Proof. reflexivity. Qed.
Lemma tot_app {I} (L L' : list I) g : tot (L ++ L') g = tot L g + tot L' g.
Proof. induction L as [|i L IH]; [rewrite ?tot_nil; cbn [app]; lra|]. cbn [app]. rewrite ?fmap_cons, ?tot_cons. rewrite IH. lra. Qed.
Lemma tot_ext {I} (L : list I) g h : (forall i, i ∈ L -> g i = h i) -> tot L g = tot L h.
Proof. induction L as [|i L IH]; intros H; [reflexivity|]. rewrite !tot_cons. rewrite H by left. rewrite IH; [reflexivity|]. intros. apply H. by right. Qed.
Lemma tot_le {I} (L : list I) g h : (forall i, i ∈ L -> g i <= h i) -> tot L g <= tot L h.
Proof. induction L as [|i L IH]; intros H; [rewrite !tot_nil; lra|]. rewrite !tot_cons. apply Rplus_le_compat; [apply H; left|]. apply IH. intros. apply H. by right. Qed.
Lemma tot_scale {I} (L : list I) g a : tot L (fun i => g i * a) = tot L g * a.
Proof. induction L as [|i L IH]; [rewrite ?tot_nil; cbn [app]; lra|]. cbn [app]. rewrite ?fmap_cons, ?tot_cons. rewrite IH. lra. Qed.
Lemma tot_plus {I} (L : list I) g h : tot L (fun i => g i + h i) = tot L g + tot L h.
Proof. induction L as [|i L IH]; [rewrite ?tot_nil; cbn [app]; lra|]. cbn [app]. rewrite ?fmap_cons, ?tot_cons. rewrite IH. lra. Qed.
Lemma tot_abs {I} (L : list I) g : Rabs (tot L g) <= tot L (fun i => Rabs (g i)).
Proof. induction L as [|i L IH]; [rewrite ?tot_nil; cbn [app]; rewrite Rabs_R0; lra|]. cbn [app]. rewrite ?fmap_cons, ?tot_cons. eapply Rle_trans; [apply Rabs_triang|]. lra. Qed.
Lemma tot_pos {I} (L : list I) g : (forall i, i ∈ L -> 0 <= g i) -> 0 <= tot L g.
Proof. intros H. apply Rle_trans with (tot L (fun _ => 0)); [|apply tot_le; exact H]. clear H. induction L as [|i L IH]; [rewrite ?tot_nil; cbn [app]; lra|]. cbn [app]. rewrite ?fmap_cons, ?tot_cons. lra. Qed.
Lemma total_tot n g : total n g = tot (seq 0 n) g.
Proof. induction n as [|n IH]; [reflexivity|]. rewrite seq_S, tot_app, <- IH, tot_cons, tot_nil. cbn [total]. replace (0 + n)%nat with n by lia. lra. Qed.
Lemma tot_map {I J} (L : list I) (f : I -> J) g : tot (f <$> L) g = tot L (fun i => g (f i)).
Proof. induction L as [|i L IH]; [reflexivity|]. rewrite fmap_cons, !tot_cons. by rewrite IH. Qed.

(** * A sum of products in floats *)
Definition fdot {I} (acc : f32) (L : list I) (a b : I -> f32) : f32 := foldl (fun acc i => Bplus mode_NE acc (Bmult mode_NE (a i) (b i))) acc L.
Lemma fdot_error {I} (L : list I) (a b : I -> f32) :
  (forall i, i ∈ L -> is_finite (a i) = true /\ is_finite (b i) = true) -> (length L <= 16)%nat -> tot L (fun i => Rabs (B2R (a i) * B2R (b i))) <= 2 ^ 105 ->
  near_to (fdot zero32 L a b) (tot L (fun i => B2R (a i) * B2R (b i)))
    ((INR (length L) + 1) * (1001 / 1000) * (u * tot L (fun i => Rabs (B2R (a i) * B2R (b i)))) + 2 * INR (length L) * eta).
Proof.
  induction L as [|i L IH] using rev_ind; intros HF HL HB.
  - cbn [fdot foldl tot foldr length]. split; [reflexivity|]. cbn. rewrite Rminus_0_r, Rabs_R0. lra.
  - rewrite app_length in HL. cbn [length] in HL. unfold fdot. rewrite foldl_app. cbn [foldl]. fold (fdot zero32 L a b). rewrite !tot_app in *. cbn [tot foldr] in *.
    change (foldr (fun i a0 => B2R (a i) * B2R (b i) + a0) 0 L) with (tot L (fun i => B2R (a i) * B2R (b i))).
    change (foldr (fun i a0 => Rabs (B2R (a i) * B2R (b i)) + a0) 0 L) with (tot L (fun i => Rabs (B2R (a i) * B2R (b i)))) in *.
    destruct (HF i) as [Fa Fb]. { apply elem_of_app. right. by left. }
    set (T := tot L (fun i => Rabs (B2R (a i) * B2R (b i)))) in *. set (s := tot L (fun i => B2R (a i) * B2R (b i))) in *. set (t := Rabs (B2R (a i) * B2R (b i))) in *.
    assert (0 <= T) as HT. { apply tot_pos. intros. apply Rabs_pos. } assert (0 <= t) as Ht by apply Rabs_pos. assert (Rabs s <= T) as Hs by apply tot_abs.
    destruct IH as [Fr Hr]; [intros j Hj; apply HF; apply elem_of_app; by left|lia|lra|].
    assert (2 ^ 105 <= 2 ^ 110) as P5 by (apply Rle_pow; [lra|lia]). assert (32 * 2 ^ 105 = 2 ^ 110) as P6. { change 110%nat with (5 + 105)%nat. rewrite pow_add. simpl (2 ^ 5). lra. }
    assert (1000 <= 2 ^ 105) as P7. { apply Rle_trans with (2 ^ 10); [simpl pow; lra|apply Rle_pow; [lra|lia]]. }
    destruct (mult_near (a i) (b i) Fa Fb) as [Fp Hp]; [fold t; lra|]. fold t in Hp.
    set (r := fdot zero32 L a b) in *. set (p := Bmult mode_NE (a i) (b i)) in *. set (ab := B2R (a i) * B2R (b i)) in *.
    assert (Rabs ab = t) as Et by reflexivity. clearbody T s t ab r p.
    pose proof eta_small as HE. assert (0 <= INR (length L) <= 15) as HK. { split; [apply pos_INR|]. replace 15 with (INR 15) by (simpl; lra). apply le_INR. lia. }
    replace (INR (length (L ++ [i]))) with (INR (length L) + 1) by (rewrite app_length; cbn [length]; rewrite plus_INR; simpl; lra). set (K := INR (length L)) in *. clearbody K. clear HF HL.
    assert (0 <= u * T) as HuT by lra. set (aT := u * T) in *. assert (aT = u * T) as EaT by reflexivity. clearbody aT.
    assert (0 <= K * aT <= 15 * aT) as HKT. { split; [apply Rmult_le_pos; lra|apply Rmult_le_compat_r; lra]. }
    assert (0 <= K * eta <= 15 * eta) as HKe. { split; [apply Rmult_le_pos; lra|apply Rmult_le_compat_r; lra]. }
    assert (0 <= K * (u * t)) as HKt. { apply Rmult_le_pos; lra. }
    replace ((K + 1) * (1001 / 1000) * aT) with (1001 / 1000 * (K * aT + aT)) in Hr by ring. replace (2 * K * eta) with (2 * (K * eta)) in Hr by ring.
    assert (Rabs (B2R r + B2R p) <= T + t + (1001 / 1000 * (K * aT + aT) + 2 * (K * eta)) + (t * u + eta)) as Hrp.
    { replace (B2R r + B2R p) with (s + ab + (B2R r - s) + (B2R p - ab)) by ring.
      eapply Rle_trans; [apply Rabs_triang|]. apply Rplus_le_compat; [|exact Hp]. eapply Rle_trans; [apply Rabs_triang|]. apply Rplus_le_compat; [|exact Hr]. eapply Rle_trans; [apply Rabs_triang|]. lra. }
    destruct (plus_near r p Fr Fp) as [Fq Hq]; [lra|]. split; [exact Fq|].
    replace (B2R (Bplus mode_NE r p) - (s + (ab + 0))) with ((B2R (Bplus mode_NE r p) - (B2R r + B2R p)) + ((B2R r - s) + (B2R p - ab))) by ring.
    eapply Rle_trans; [apply Rabs_triang|].
    assert (Rabs ((B2R r - s) + (B2R p - ab)) <= (1001 / 1000 * (K * aT + aT) + 2 * (K * eta)) + (t * u + eta)) as H2. { eapply Rle_trans; [apply Rabs_triang|]. lra. }
    replace (u * (T + (t + 0))) with (aT + u * t) by (rewrite EaT; ring).
    replace ((K + 1 + 1) * (1001 / 1000) * (aT + u * t) + 2 * (K + 1) * eta) with (1001 / 1000 * (K * aT + K * (u * t) + 2 * (aT + u * t)) + 2 * (K * eta) + 2 * eta) by ring.
    assert (T = 16777216 * aT) as ET by lra. clear EaT. lra.
Qed.

(** Exact sums of disturbed products. *)
Lemma disturbed {I} (L : list I) (x y X Y e : I -> R) ey YB :
  0 <= ey -> 0 <= YB -> (forall i, i ∈ L -> Rabs (x i - X i) <= e i /\ Rabs (y i - Y i) <= ey /\ Rabs (Y i) <= YB) ->
  Rabs (tot L (fun i => x i * y i) - tot L (fun i => X i * Y i)) <= tot L (fun i => Rabs (X i)) * ey + tot L e * (YB + ey) /\
  tot L (fun i => Rabs (x i * y i)) <= (tot L (fun i => Rabs (X i)) + tot L e) * (YB + ey).
Proof.
  intros H1 H2 H. split.
  - replace (tot L (fun i => x i * y i) - tot L (fun i => X i * Y i)) with (tot L (fun i => x i * y i + X i * Y i * -1)).
    2: { rewrite tot_plus, tot_scale. lra. }
    eapply Rle_trans; [apply tot_abs|]. rewrite <- !tot_scale, <- tot_plus. apply tot_le. intros i Hi. destruct (H i Hi) as (A & B & C).
    replace (x i * y i + X i * Y i * -1) with (x i * y i - X i * Y i) by ring. pose proof (product_error _ _ _ _ _ _ _ _ A B (Rle_refl _) C). lra.
  - rewrite <- tot_plus, <- tot_scale. apply tot_le. intros i Hi. destruct (H i Hi) as (A & B & C). rewrite Rabs_mult. apply Rmult_le_compat; [apply Rabs_pos|apply Rabs_pos| |exact (abs_within _ _ _ _ B C)].
    exact (abs_within _ _ _ _ A (Rle_refl _)).
Qed.
(** Together: weights [x] near to [X], values [y] near to [Y]. *)
Lemma fdot_near {I} (L : list I) (a b : I -> f32) (x y X Y e : I -> R) ey YB SB EB :
  0 <= ey -> 0 <= YB -> (length L <= 16)%nat ->
  (forall i, i ∈ L -> is_finite (a i) = true /\ is_finite (b i) = true /\ B2R (a i) * B2R (b i) = x i * y i) ->
  (forall i, i ∈ L -> Rabs (x i - X i) <= e i /\ Rabs (y i - Y i) <= ey /\ Rabs (Y i) <= YB) ->
  tot L (fun i => Rabs (X i)) <= SB -> tot L e <= EB -> (SB + EB) * (YB + ey) <= 2 ^ 105 ->
  near_to (fdot zero32 L a b) (tot L (fun i => X i * Y i)) (SB * ey + EB * (YB + ey) + (INR (length L) + 1) * (1001 / 1000) * (u * ((SB + EB) * (YB + ey))) + 2 * INR (length L) * eta).
Proof.
  intros He HY HL HF H HS HE HB. destruct (disturbed L x y X Y e ey YB He HY H) as [D1 D2].
  assert (tot L (fun i => x i * y i) = tot L (fun i => B2R (a i) * B2R (b i))) as E1. { apply tot_ext. intros i Hi. symmetry. apply (HF i Hi). }
  assert (tot L (fun i => Rabs (x i * y i)) = tot L (fun i => Rabs (B2R (a i) * B2R (b i)))) as E2. { apply tot_ext. intros i Hi. f_equal. symmetry. apply (HF i Hi). }
  rewrite E1 in D1. rewrite E2 in D2. set (T := tot L (fun i => Rabs (B2R (a i) * B2R (b i)))) in *.
  assert (T <= (SB + EB) * (YB + ey)) as HT. { eapply Rle_trans; [exact D2|]. apply Rmult_le_compat_r; lra. }
  destruct (fdot_error L a b) as [F V]; [intros i Hi; destruct (HF i Hi) as (A & B & _); by split|exact HL|fold T; lra|]. split; [exact F|]. fold T in V.
  replace (B2R (fdot zero32 L a b) - tot L (fun i => X i * Y i)) with ((B2R (fdot zero32 L a b) - tot L (fun i => B2R (a i) * B2R (b i))) + (tot L (fun i => B2R (a i) * B2R (b i)) - tot L (fun i => X i * Y i))) by ring.
  eapply Rle_trans; [apply Rabs_triang|].
  assert (tot L (fun i => Rabs (X i)) * ey <= SB * ey) as P1 by (apply Rmult_le_compat_r; lra). assert (tot L e * (YB + ey) <= EB * (YB + ey)) as P2 by (apply Rmult_le_compat_r; lra).
  assert ((INR (length L) + 1) * (1001 / 1000) * (u * T) <= (INR (length L) + 1) * (1001 / 1000) * (u * ((SB + EB) * (YB + ey)))) as P3. { pose proof (pos_INR (length L)). apply Rmult_le_compat_l; lra. }
  lra.
Qed.

(** * std::modf *)
Lemma fraction_format (x : f32) o f : position x o f -> generic_format radix2 fexp32 f.
Proof.
  intros (Fx & Hf & Ex & Ho). destruct (Nat.eq_dec o 0) as [->|Hz]. { replace f with (B2R x) by (rewrite Ex; simpl; lra). apply format32. }
  assert (1 <= INR o) as H1 by (replace 1 with (INR 1) by reflexivity; apply le_INR; lia).
  assert (B2R x <> 0) as Hx by lra. set (e := cexp radix2 fexp32 (B2R x)). assert (generic_format radix2 fexp32 (B2R x)) as Gx by apply format32.
  assert (B2R x < bpow radix2 24) as Hlt. { change (bpow radix2 24) with (IZR (2 ^ 24)). assert (IZR (2 ^ 24) = 2 ^ 24) as E24 by (simpl pow; lra). rewrite Ex, E24.
    assert (INR o <= 2 ^ 24 - 1) as Hle. { assert (2 ^ 24 = IZR (2 ^ 24)) as E' by (simpl pow; lra). rewrite E' in *. rewrite INR_IZR_INZ in *. apply lt_IZR in Ho. rewrite <- minus_IZR. apply IZR_le. lia. } lra. }
  assert (mag radix2 (B2R x) <= 24)%Z as M1. { apply mag_le_bpow; [exact Hx|]. rewrite Rabs_pos_eq by lra. exact Hlt. }
  assert (0 < mag radix2 (B2R x))%Z as M0. { apply mag_gt_bpow. rewrite Rabs_pos_eq by lra. change (bpow radix2 0) with 1. lra. }
  assert (e = mag radix2 (B2R x) - 24)%Z as Ee. { unfold e, cexp, FLT_exp. lia. }
  apply (multiple_format e); [lia| |].
  - exists (Ztrunc (scaled_mantissa radix2 fexp32 (B2R x)) - Z.of_nat o * 2 ^ (- e))%Z. rewrite minus_IZR, mult_IZR, <- INR_IZR_INZ.
    rewrite (IZR_Zpower radix2) by lia. replace f with (B2R x - INR o) by lra. rewrite Gx at 1. unfold F2R. cbn [Fnum Fexp]. fold e. rewrite Rmult_minus_distr_r, Rmult_assoc, <- bpow_plus. replace (- e + e)%Z with 0%Z by lia. change (bpow radix2 0) with 1. ring.
  - rewrite Rabs_pos_eq by lra. apply Rle_trans with 1; [lra|]. change 1 with (bpow radix2 0). apply bpow_le. lia.
Qed.
Lemma modf32_spec (x : f32) o f : position x o f -> exists fr, modf32 x = Some (o, fr) /\ is_finite fr = true /\ B2R fr = f.
Proof.
  intros Hp. pose proof (fraction_format _ _ _ Hp) as Gf. destruct Hp as (Fx & Hf & Ex & Ho). pose proof (pos_INR o) as H0. unfold modf32.
  rewrite Bleb_correct by (exact Fx || reflexivity). change (B2R zero32) with 0. rewrite Rle_bool_true by lra.
  assert (2 ^ 24 < 2 ^ 60 - 1) as P24 by (simpl pow; lra). destruct (trunc_value x Fx) as (k & Hk & B1 & B2); [lra|]. rewrite Hk. cbn [mbind option_bind].
  assert (k = N.of_nat o) as ->. { unfold real in B1, B2. rewrite Ex, INR_IZR_INZ in B1, B2. assert (Z.of_N k < Z.of_nat o + 1)%Z by (apply lt_IZR; rewrite plus_IZR; lra). assert (Z.of_nat o < Z.of_N k + 1)%Z by (apply lt_IZR; rewrite plus_IZR; lra). lia. }
  rewrite Nat2N.id. eexists. split; [reflexivity|].
  assert (N.of_nat o <= 2 ^ 24)%N as Hn. { assert (2 ^ 24 = IZR (2 ^ 24)) as E' by (simpl pow; lra). rewrite E', INR_IZR_INZ in Ho. apply lt_IZR in Ho. lia. }
  destruct (of_size_value _ Hn) as [Fo Vo]. assert (real (N.of_nat o) = INR o) as Er. { unfold real. rewrite nat_N_Z, <- INR_IZR_INZ. reflexivity. } rewrite Er in Vo.
  destruct (minus_value x _ Fx Fo) as [F V]. { rewrite Vo, Ex. replace (INR o + f - INR o) with f by ring. rewrite Rabs_pos_eq by lra. pose proof bpow127_big. pose proof pow110. lra. }
  split; [exact F|]. rewrite V, Vo, Ex. replace (INR o + f - INR o) with f by ring. apply round_generic; [typeclasses eauto|exact Gf].
Qed.

(** * Tabulated buffers *)
Definition pvec {A} (n : nat) (g : nat -> A) : list A := g <$> seq 0 n.
Definition ptab {A} (n vd : nat) (g : nat -> nat -> A) : list (list A) := (fun s => pvec vd (g s)) <$> seq 0 n.
Section Tabulated.
  Context {A : Type}.
  Lemma pvec_length n (g : nat -> A) : length (pvec n g) = n.
  Proof. unfold pvec. by rewrite fmap_length, seq_length. Qed.
  Lemma pvec_ext n (g h : nat -> A) : (forall i, (i < n)%nat -> g i = h i) -> pvec n g = pvec n h.
  Proof. intros H. unfold pvec. apply map_ext_in. intros i Hi%in_seq. apply H. lia. Qed.
  Lemma pvec_lookup n (g : nat -> A) i : (i < n)%nat -> pvec n g !! i = Some (g i).
  Proof. intros. unfold pvec. rewrite list_lookup_fmap, lookup_seq_lt by done. done. Qed.
  Lemma ptab_ext n vd (g h : nat -> nat -> A) : (forall s c, (s < n)%nat -> (c < vd)%nat -> g s c = h s c) -> ptab n vd g = ptab n vd h.
  Proof. intros H. unfold ptab. apply map_ext_in. intros s Hs%in_seq. apply pvec_ext. intros. apply H; lia. Qed.
  Lemma ptab_lookup n vd (g : nat -> nat -> A) s : (s < n)%nat -> ptab n vd g !! s = Some (pvec vd (g s)).
  Proof. intros. unfold ptab. rewrite list_lookup_fmap, lookup_seq_lt by done. done. Qed.
  Lemma ptab_insert n vd (g : nat -> nat -> A) s (h : nat -> A) : (s < n)%nat ->
    <[s := pvec vd h]> (ptab n vd g) = ptab n vd (fun s' c => if decide (s' = s) then h c else g s' c).
  Proof.
    intros Hs. apply list_eq. intros i. destruct (decide (i < n)%nat) as [Hi|Hi].
    - rewrite ptab_lookup by done. destruct (decide (i = s)) as [->|].
      + rewrite list_lookup_insert by (unfold ptab; by rewrite fmap_length, seq_length). done.
      + rewrite list_lookup_insert_ne by done. by rewrite ptab_lookup.
    - rewrite !lookup_ge_None_2; [done|..]; rewrite ?insert_length; unfold ptab; rewrite fmap_length, seq_length; lia.
  Qed.
  Lemma pvec_zip (f : A -> A -> A) n (g h : nat -> A) : zip_with f (pvec n g) (pvec n h) = pvec n (fun i => f (g i) (h i)).
  Proof. unfold pvec. rewrite zip_with_fmap_l, zip_with_fmap_r, zip_with_diag. done. Qed.
  Lemma pvec_fmap n (g : nat -> A) (f : A -> A) : f <$> pvec n g = pvec n (fun i => f (g i)).
  Proof. unfold pvec. by rewrite <- list_fmap_compose. Qed.
  Lemma pvec_const n (x : A) : replicate n x = pvec n (fun _ => x).
  Proof. apply list_eq_same_length with n; rewrite ?pvec_length, ?replicate_length; try done. intros i a b Hi. rewrite pvec_lookup, lookup_replicate_2 by done. congruence. Qed.
  Lemma foldM_ptab {B} n vd (step : list (list A) -> B -> option (list (list A))) (h : nat -> nat -> A -> B -> A) l :
    (forall b g, b ∈ l -> step (ptab n vd g) b = Some (ptab n vd (fun s c => h s c (g s c) b))) ->
    forall g, foldM step (ptab n vd g) l = Some (ptab n vd (fun s c => foldl (h s c) (g s c) l)).
  Proof.
    intros Hstep. induction l as [|b l IH]; intros g; cbn [foldM]; [done|].
    rewrite Hstep by left. cbn [mbind option_bind]. rewrite IH by (intros; apply Hstep; by right). done.
  Qed.
  Lemma foldM_pvec {B} vd (step : list A -> B -> option (list A)) (h : nat -> A -> B -> A) l :
    (forall b g, b ∈ l -> step (pvec vd g) b = Some (pvec vd (fun c => h c (g c) b))) ->
    forall g, foldM step (pvec vd g) l = Some (pvec vd (fun c => foldl (h c) (g c) l)).
  Proof.
    intros Hstep. induction l as [|b l IH]; intros g; cbn [foldM]; [done|].
    rewrite Hstep by left. cbn [mbind option_bind]. rewrite IH by (intros; apply Hstep; by right). done.
  Qed.
  Lemma psamples_loop n vd (step : list (list A) -> nat -> option (list (list A))) (h : nat -> nat -> A -> A) :
    (forall s g, (s < n)%nat -> step (ptab n vd g) s = Some (<[s := pvec vd (fun c => h s c (g s c))]> (ptab n vd g))) ->
    forall g, foldM step (ptab n vd g) (seq 0 n) = Some (ptab n vd (fun s c => h s c (g s c))).
  Proof.
    intros Hstep.
    assert (forall m a g, (a + m <= n)%nat -> foldM step (ptab n vd g) (seq a m) =
              Some (ptab n vd (fun s c => if decide (a <= s < a + m)%nat then h s c (g s c) else g s c))) as Hgen.
    { induction m as [|m IH]; intros a g Ham; cbn [seq foldM].
      - f_equal. apply ptab_ext. intros. by rewrite decide_False by lia.
      - rewrite Hstep by lia. cbn [mbind option_bind]. rewrite ptab_insert by lia. rewrite IH by lia. f_equal.
        apply ptab_ext. intros s c Hs Hc. cbv beta. destruct (decide (s = a)) as [->|].
        + rewrite decide_False by lia. by rewrite decide_True by lia.
        + destruct (decide (S a <= s < S a + m)%nat), (decide (a <= s < a + S m)%nat); try done; lia. }
    intros g. rewrite Hgen by lia. f_equal. apply ptab_ext. intros. by rewrite decide_True by lia.
  Qed.
  Lemma pmapM {B} (f : nat -> option B) (g : nat -> B) n : (forall j, (j < n)%nat -> f j = Some (g j)) -> mapM f (seq 0 n) = Some (g <$> seq 0 n).
  Proof. intros H. rewrite (mapM_Some_const f g); [done|]. intros j Hj%elem_of_seq. apply H. lia. Qed.
End Tabulated.

(** * The loops *)
Local Notation add := (Bplus mode_NE).
Local Notation mul := (Bmult mode_NE).
Lemma interpolate_1d32_spec vd kern data p (g : nat -> nat -> f32) :
  (forall i j, (i < length kern)%nat -> (j < vd)%nat -> peek32 data (p + Z.of_nat (vd * i + j)) = Some (g i j)) ->
  interpolate_1d32 vd kern data p = Some (pvec vd (fun c => fdot zero32 (seq 0 (length kern)) (fun i => nth i kern zero32) (fun i => g i c))).
Proof.
  intros Hg. unfold interpolate_1d32. unfold f32 in *. rewrite pvec_const.
  rewrite (foldM_pvec vd _ (fun c acc i => add acc (mul (nth i kern zero32) (g i c)))); [done|].
  intros i a Hi%elem_of_seq. destruct (lookup_lt_is_Some_2 kern i ltac:(lia)) as [w Hw]. rewrite Hw. cbn [mbind option_bind].
  rewrite (pmapM _ (g i)) by (intros; apply Hg; lia). cbn [mbind option_bind].
  change (g i <$> seq 0 vd) with (pvec vd (g i)). rewrite pvec_fmap, pvec_zip. f_equal. apply pvec_ext. intros c Hc.
  by rewrite (nth_lookup_Some _ _ _ _ Hw).
Qed.
Lemma read_float vd (arr : ndarr f32) n1 n2 n3 i1 i2 i3 j :
  api_array vd arr -> a_shape arr = [n1; n2; n3] -> (i1 < n1)%nat -> (i2 < n2)%nat -> (i3 < n3)%nat -> (j < vd)%nat ->
  peek32 (a_data arr) (Z.of_nat (flat_ind (a_strides arr) (a_off arr) [i1; i2; 0%nat]) + Z.of_nat vd * Z.of_nat i3 + Z.of_nat j)
    = Some (component vd arr [i1; i2; i3] j).
Proof.
  intros Hapi Hsh H1 H2 H3 Hj. pose proof (api_array_wf _ _ Hapi) as Hwf.
  assert (in_shape (a_shape arr) [i1; i2; i3]) as Hin.
  { rewrite Hsh. apply in_shape_forall2. repeat constructor; done. }
  destruct (aread_Some vd arr [i1; i2; i3]) as (v & Hv & Hl); [by apply wf_owned_wf|done|].
  assert (flat_ind (a_strides arr) (a_off arr) [i1; i2; i3] = flat_ind (a_strides arr) (a_off arr) [i1; i2; 0] + vd * i3)%nat as Hf.
  { destruct Hwf as (_ & -> & -> & _ & _). rewrite Hsh. unfold flat_ind, compute_strides. simpl. lia. }
  unfold component. unfold f32 in *. rewrite Hv. cbn [default]; unfold Datatypes.id. rewrite aread_eq in Hv by done. rewrite Hf in Hv.
  apply block_lookup in Hv as [_ Hlk]. unfold peek32.
  destruct (Z.leb_spec 0 (Z.of_nat (flat_ind (a_strides arr) (a_off arr) [i1; i2; 0%nat]) + Z.of_nat vd * Z.of_nat i3 + Z.of_nat j)); [|lia].
  replace (Z.to_nat _) with (flat_ind (a_strides arr) (a_off arr) [i1; i2; 0] + vd * i3 + j)%nat by lia.
  destruct (lookup_lt_is_Some_2 v j ltac:(lia)) as [y Hy]. rewrite (nth_lookup_Some _ _ _ _ Hy).
  rewrite <- Hlk by lia. done.
Qed.
(** The stencil around the integer position [o] lies inside an axis with [n] elements. *)
Definition room (sup n o : nat) : Prop := (sup - 1 <= o)%nat /\ (o + sup < n)%nat.

Lemma interpolate32_spec K vd arr n1 n2 n3 x1 x2 o1 f1 o2 f2 w1 w2 start delta n (o3 : nat -> nat) (f3 : nat -> f32) (w3 : nat -> list f32) g :
  let sup := k32_support K in let ks := (2 * sup)%nat in let off := (sup - 1)%nat in
  (1 <= sup)%nat -> api_array vd arr -> a_shape arr = [n1; n2; n3] ->
  modf32 x1 = Some (o1, f1) -> modf32 x2 = Some (o2, f2) -> k32_kern K f1 = Some w1 -> k32_kern K f2 = Some w2 -> length w1 = ks -> length w2 = ks ->
  room sup n1 o1 -> room sup n2 o2 ->
  (forall s, (s < n)%nat -> modf32 (inner_ind32 start delta s) = Some (o3 s, f3 s) /\ k32_kern K (f3 s) = Some (w3 s) /\ length (w3 s) = ks /\ room sup n3 (o3 s)) ->
  interpolate32 K vd arr (ptab n vd g) x1 x2 start delta n
    = Some (ptab n vd (fun s c => foldl (fun acc i1 => foldl (fun acc i2 =>
        add acc (mul (fdot zero32 (seq 0 ks) (fun i => nth i (w3 s) zero32) (fun i => component vd arr [i1; i2; o3 s - off + i]%nat c))
                     (mul (nth (i1 - (o1 - off)) w1 zero32) (nth (i2 - (o2 - off)) w2 zero32)))) acc (seq (o2 - off) ks)) (g s c) (seq (o1 - off) ks))).
Proof.
  intros sup ks off Hsup Hapi Hsh Hm1 Hm2 Hk1 Hk2 L1 L2 [R1 R1'] [R2 R2'] Hs. unfold interpolate32. unfold f32 in *.
  rewrite Hm1, Hm2. cbn [mbind option_bind]. rewrite Hk1, Hk2. cbn [mbind option_bind]. cbv zeta. fold sup. fold off.
  assert (stencil sup o1 = seq (o1 - off) ks) as ->. { unfold stencil. destruct (Nat.leb_spec (sup - 1) o1); [done|lia]. }
  assert (stencil sup o2 = seq (o2 - off) ks) as ->. { unfold stencil. destruct (Nat.leb_spec (sup - 1) o2); [done|lia]. }
  fold off in R1, R2.
  assert (forall i1 i2 (c1 c2 : binary_float 24 128), (i1 < n1)%nat -> (i2 < n2)%nat -> forall g,
    foldM (fun (ret : list (list (binary_float 24 128))) s =>
        '(ii, fi) ← modf32 (inner_ind32 start delta s);
        ik ← k32_kern K fi;
        v ← interpolate_1d32 vd ik (a_data arr) (Z.of_nat (flat_ind (a_strides arr) (a_off arr) [i1; i2; 0%nat]) + Z.of_nat vd * (Z.of_nat ii - Z.of_nat off))%Z;
        old ← ret !! s;
        Some (<[s := zip_with add old ((fun x => mul x (mul c1 c2)) <$> v)]> ret)) (ptab n vd g) (seq 0 n)
    = Some (ptab n vd (fun s c => add (g s c) (mul (fdot zero32 (seq 0 ks) (fun i => nth i (w3 s) zero32) (fun i => component vd arr [i1; i2; o3 s - off + i]%nat c)) (mul c1 c2))))) as Hinner.
  { intros i1 i2 c1 c2 Hi1 Hi2 g'. apply (psamples_loop n vd _ (fun s c a => add a (mul (fdot zero32 (seq 0 ks) (fun i => nth i (w3 s) zero32) (fun i => component vd arr [i1; i2; o3 s - off + i]%nat c)) (mul c1 c2)))). intros s a Hsn.
    destruct (Hs s Hsn) as (Hm3 & Hk3 & L3 & [Hr3 Hr3']). fold off in Hr3. rewrite Hm3. cbn [mbind option_bind].
    rewrite Hk3. cbn [mbind option_bind].
    rewrite (interpolate_1d32_spec _ _ _ _ (fun i j => component vd arr [i1; i2; o3 s - off + i]%nat j)).
    2:{ intros i j Hi Hj. assert (i < ks)%nat as Hi' by (rewrite <- L3; exact Hi). clear Hi. rewrite <- (read_float vd arr n1 n2 n3) by (try done; unfold off, ks in *; lia).
        f_equal. rewrite !Nat2Z.inj_add, Nat2Z.inj_mul, Nat2Z.inj_sub by done. match goal with |- (?a + _ + _)%Z = (?b + _ + _)%Z => change b with a; generalize a end. intros z. generalize (Z.of_nat off). intros. ring. }
    cbn [mbind option_bind]. rewrite ptab_lookup by done. cbn [mbind option_bind]. rewrite <- L3. rewrite pvec_fmap, pvec_zip. done. }
  rewrite (foldM_ptab n vd _ (fun s c acc i1 => foldl (fun acc i2 =>
        add acc (mul (fdot zero32 (seq 0 ks) (fun i => nth i (w3 s) zero32) (fun i => component vd arr [i1; i2; o3 s - off + i]%nat c))
                     (mul (nth (i1 - (o1 - off)) w1 zero32) (nth (i2 - (o2 - off)) w2 zero32)))) acc (seq (o2 - off) ks))); [done|].
  intros i1 a Hi1%elem_of_seq.
  rewrite (foldM_ptab n vd _ (fun s c acc i2 =>
        add acc (mul (fdot zero32 (seq 0 ks) (fun i => nth i (w3 s) zero32) (fun i => component vd arr [i1; i2; o3 s - off + i]%nat c))
                     (mul (nth (i1 - (o1 - off)) w1 zero32) (nth (i2 - (o2 - off)) w2 zero32))))); [done|].
  intros i2 b Hi2%elem_of_seq. cbv zeta.
  destruct (lookup_lt_is_Some_2 w1 (i1 - (o1 - off))) as [c1 Hc1]; [lia|].
  destruct (lookup_lt_is_Some_2 w2 (i2 - (o2 - off))) as [c2 Hc2]; [lia|].
  rewrite Hc1. cbn [mbind option_bind]. rewrite Hc2. cbn [mbind option_bind].
  pose proof (nth_lookup_Some _ _ zero32 _ Hc1) as N1. pose proof (nth_lookup_Some _ _ zero32 _ Hc2) as N2. subst c1 c2. apply Hinner; unfold off, ks in *; lia.
Qed.
