(** Property theorems C48, C49. *)
From stdpp Require Import base list list_numbers numbers option.
From Coq Require Import ZArith SpecFloat Lia.
From Verif Require Import ValidationModel.

(** * C48 *)
Definition is_number (x : spec_float) : Prop := x <> S754_nan.
(** [less x y], [leq x y]: the order of the numbers. *)
Definition less (x y : spec_float) : Prop := SFcompare x y = Some Lt.
Definition leq (x y : spec_float) : Prop := SFcompare x y = Some Lt \/ SFcompare x y = Some Eq.

Lemma compare_total x y : is_number x -> is_number y -> exists c, SFcompare x y = Some c /\ SFcompare y x = Some (CompOpp c).
Proof.
  unfold is_number. destruct x as [sx|sx| |sx mx ex], y as [sy|sy| |sy my ey]; intros Hx Hy; try done; simpl;
    try (destruct sx, sy; eexists; split; reflexivity); try (destruct sx; eexists; split; reflexivity); try (destruct sy; eexists; split; reflexivity).
  destruct sx, sy; try (eexists; split; reflexivity);
    rewrite (Z.compare_antisym ey ex); change (Pos.compare_cont Eq ?a ?b) with (Pos.compare a b);
    rewrite (Pos.compare_antisym my mx); simpl;
    destruct (ey ?= ex)%Z; simpl; eexists; (split; [reflexivity|]); rewrite ?CompOpp_involutive; try reflexivity.
Qed.
Lemma lt_iff x y : flt x y = true <-> less x y.
Proof. unfold flt, SFltb, less. destruct (SFcompare x y) as [[]|]; naive_solver. Qed.
Lemma le_iff x y : fle x y = true <-> leq x y.
Proof. unfold fle, SFleb, leq. destruct (SFcompare x y) as [[]|]; naive_solver. Qed.
Lemma lt_false x y : is_number x -> is_number y -> flt x y = false <-> leq y x.
Proof.
  intros Hx Hy. destruct (compare_total x y Hx Hy) as (c & H1 & H2). unfold flt, SFltb, leq. rewrite H1, H2. destruct c; simpl; naive_solver.
Qed.
Lemma le_false x y : is_number x -> is_number y -> fle x y = false <-> less y x.
Proof.
  intros Hx Hy. destruct (compare_total x y Hx Hy) as (c & H1 & H2). unfold fle, SFleb, less. rewrite H1, H2. destruct c; simpl; naive_solver.
Qed.
Lemma eq_false x y : is_number x -> is_number y -> leq x y -> feq x y = false <-> less x y.
Proof.
  intros Hx Hy. destruct (compare_total x y Hx Hy) as (c & H1 & H2). unfold feq, SFeqb, leq, less. rewrite H1. destruct c; simpl; naive_solver.
Qed.
Ltac gt_false := rewrite (lt_false _ _) by done.

(** What is accepted, and that it is kept unchanged. *)
Theorem C48_line_current p0 p1 t0 t1 q s : is_number t0 -> is_number t1 ->
  new_segment p0 p1 t0 t1 q = Some s <-> less t0 t1 /\ s = Segment p0 p1 t0 t1 q.
Proof.
  intros H0 H1. unfold new_segment. change (fge t0 t1) with (fle t1 t0). destruct (fle t1 t0) eqn:E.
  - apply le_iff in E. split; [done|]. intros [Hl _]. destruct (compare_total t0 t1 H0 H1) as (c & C1 & C2).
    unfold leq, less in *. rewrite C1 in Hl. injection Hl as ->. rewrite C2 in E. destruct E; discriminate.
  - apply le_false in E; [|done..]. naive_solver.
Qed.
Print Assumptions C48_line_current.

Definition physical (g : region) : Prop := leq fzero (rg_rmin g) /\ leq fzero (rg_rmax g) /\ leq (rg_rmin g) (rg_rmax g) /\ leq (rg_zmin g) (rg_zmax g).
Lemma zero_number : is_number fzero. Proof. done. Qed.
Lemma region_ok r0 r1 z0 z1 : is_number r0 -> is_number r1 -> is_number z0 -> is_number z1 ->
  region_throws (Region r0 r1 z0 z1) = false <-> physical (Region r0 r1 z0 z1).
Proof.
  intros. unfold region_throws, physical; simpl. rewrite !orb_false_iff.
  change (fgt r0 r1) with (flt r1 r0). change (fgt z0 z1) with (flt z1 z0).
  rewrite !lt_false by (done || apply zero_number). tauto.
Qed.
Theorem C48_region r0 r1 z0 z1 g : is_number r0 -> is_number r1 -> is_number z0 -> is_number z1 ->
  new_region r0 r1 z0 z1 = Some g <-> physical g /\ g = Region r0 r1 z0 z1.
Proof.
  intros. unfold new_region. destruct (region_throws _) eqn:E.
  - split; [done|]. intros [Hp ->]. apply region_ok in Hp; [congruence|done..].
  - apply region_ok in E; [|done..]. naive_solver.
Qed.
Theorem C48_geometry r1 z0 z1 ge : is_number r1 -> is_number z0 -> is_number z1 ->
  new_geometry r1 z0 z1 = Some ge <-> leq fzero r1 /\ leq z0 z1 /\ ge = Geometry r1 z0 z1.
Proof.
  intros. unfold new_geometry. change (fgt z0 z1) with (flt z1 z0).
  pose proof (lt_false r1 fzero ltac:(done) zero_number) as H2. pose proof (lt_false z1 z0 ltac:(done) ltac:(done)) as H3.
  destruct (flt r1 fzero), (flt z1 z0); naive_solver.
Qed.
(** The region to store must lie in the geometry and have a positive extent in both directions. *)
Theorem C48_storage_region ge g g' :
  is_number (rg_rmin g) -> is_number (rg_rmax g) -> is_number (rg_zmin g) -> is_number (rg_zmax g) -> physical g ->
  new_calculator ge g = Some g' <->
    (leq (ge_zmin ge) (rg_zmin g) /\ leq (rg_zmax g) (ge_zmax ge) /\ leq fzero (rg_rmin g) /\ leq (rg_rmax g) (ge_rmax ge)) /\
    less (rg_rmin g) (rg_rmax g) /\ less (rg_zmin g) (rg_zmax g) /\ g' = g.
Proof.
  intros N1 N2 N3 N4 (P1 & P2 & P3 & P4). unfold new_calculator, geometry_contains, region_empty.
  change (fge (rg_zmin g) (ge_zmin ge)) with (fle (ge_zmin ge) (rg_zmin g)). change (fge (rg_rmin g) fzero) with (fle fzero (rg_rmin g)).
  rewrite <- !le_iff. rewrite <- (eq_false (rg_rmin g) (rg_rmax g)), <- (eq_false (rg_zmin g) (rg_zmax g)) by done.
  destruct (fle (ge_zmin ge) (rg_zmin g)), (fle (rg_zmax g) (ge_zmax ge)), (fle fzero (rg_rmin g)), (fle (rg_rmax g) (ge_rmax ge)),
    (feq (rg_rmin g) (rg_rmax g)), (feq (rg_zmin g) (rg_zmax g)); simpl; naive_solver.
Qed.
Print Assumptions C48_storage_region.
(** Without a storage region everything is stored; this fails only for a geometry without extent. *)
Theorem C48_default_storage_region r1 z0 z1 ge g : is_number r1 -> is_number z0 -> is_number z1 ->
  new_geometry r1 z0 z1 = Some ge ->
  (new_calculator_all ge = Some g <-> less fzero r1 /\ less z0 z1 /\ g = Region fzero r1 z0 z1).
Proof.
  intros H1 H2 H3 (Hr & Hz & ->)%C48_geometry; [|done..]. unfold new_calculator_all; simpl.
  destruct (new_region fzero r1 z0 z1) as [g0|] eqn:E.
  - apply C48_region in E as [Hp ->]; [|done..]. cbn [mbind option_bind]. rewrite C48_storage_region by done. simpl.
    assert (forall x, is_number x -> leq x x) as Hrefl.
    { intros x Hx. destruct (compare_total x x Hx Hx) as (c & C1 & C2). unfold leq. destruct c; [naive_solver| |]; simpl in C2; congruence. }
    split; [naive_solver|]. intros (L1 & L2 & ->). split_and!; try done; auto. right; done.
  - split; [done|]. intros (L1 & L2 & ->). exfalso. assert (new_region fzero r1 z0 z1 = Some (Region fzero r1 z0 z1)) as E2; [|congruence].
    apply C48_region; try done. split; [|done]. unfold physical; simpl. split_and!; try done. right; done.
Qed.
Print Assumptions C48_default_storage_region.
(** Refuted beyond that: a not-a-number is accepted everywhere, and a rejected SetRegion has already replaced the old region. *)
Theorem C48_nan_accepted_refuted :
  (forall p0 p1 t1 q, new_segment p0 p1 S754_nan t1 q <> None) /\
  new_region S754_nan S754_nan S754_nan S754_nan <> None /\ new_geometry S754_nan S754_nan S754_nan <> None.
Proof. split_and!; [intros p0 p1 t1 q; unfold new_segment; destruct t1; done|done|done]. Qed.
Theorem C48_failed_set_region_keeps_old_refuted :
  exists g g' r0 r1 z0 z1, new_region fzero fzero fzero fzero = Some g /\ physical g /\
    set_region g r0 r1 z0 z1 = (g', true) /\ g' <> g /\ ~ physical g'.
Proof.
  exists (Region fzero fzero fzero fzero). eexists. exists fzero, fzero, (S754_infinity false), fzero. split_and!; [done| |reflexivity|done|].
  - unfold physical; simpl. repeat split; by right.
  - unfold physical; simpl. intros (_ & _ & _ & [H|H]); discriminate.
Qed.
Example C48_nonvacuous : let one := S754_finite false 1 0 in let two := S754_finite false 1 1 in
  new_segment [] [] one two one <> None /\ new_segment [] [] two one one = None /\ new_segment [] [] one one one = None /\
  exists ge g, new_geometry two one two = Some ge /\ new_region fzero one one two = Some g /\ new_calculator ge g = Some g.
Proof. simpl. split_and!; try done. eexists _, _. split_and!; reflexivity. Qed.

(** * C49 *)
Definition representable (t : itype) (x : Z) : Prop := (it_min t <= x <= it_max t)%Z.
Lemma icast_id t x : representable t x -> icast t x = x.
Proof.
  unfold representable, icast, it_min, it_max. destruct (it_signed t).
  - destruct (it_bits t) as [|k] eqn:E.
    { simpl. lia. }
    replace (Z.of_nat (S k) - 1)%Z with (Z.of_nat k) by lia. rewrite Nat2Z.inj_succ, Z.pow_succ_r by lia. intros. rewrite Z.mod_small; lia.
  - intros. rewrite Z.mod_small; lia.
Qed.
Lemma icast_range t x : (1 <= it_bits t)%nat -> representable t (icast t x).
Proof.
  intros Hb. unfold representable, icast, it_min, it_max. destruct (it_bits t) as [|k]; [lia|].
  assert (0 < 2 ^ Z.of_nat (S k))%Z by (apply Z.pow_pos_nonneg; lia). pose proof (Z.mod_pos_bound (x - (if it_signed t then - 2 ^ (Z.of_nat (S k) - 1) else 0)) (2 ^ Z.of_nat (S k)) ltac:(done)).
  destruct (it_signed t); [|lia]. replace (Z.of_nat (S k) - 1)%Z with (Z.of_nat k) in * by lia. rewrite Nat2Z.inj_succ, Z.pow_succ_r in * by lia. lia.
Qed.

(** Component-wise, for any two integral types: right exactly where the true result is a value of the result type. *)
Theorem C49_min_max_exact_iff_representable t1 (a b : Z) :
  (1 <= it_bits t1)%nat -> representable t1 a ->
  (take_min t1 a b = Z.min a b <-> representable t1 (Z.min a b)) /\
  (take_max t1 a b = Z.max a b <-> representable t1 (Z.max a b)).
Proof.
  intros Hb Ha. unfold take_min, take_max. split.
  - destruct (Z.ltb_spec a b); [rewrite Z.min_l by lia; done|]. rewrite Z.min_r by lia. split; [|apply icast_id].
    intros <-. by apply icast_range.
  - destruct (Z.ltb_spec b a); [rewrite Z.max_l by lia; done|]. rewrite Z.max_r by lia. split; [|apply icast_id].
    intros <-. by apply icast_range.
Qed.
Theorem C49_vectors t1 va vb :
  length va = length vb -> (1 <= it_bits t1)%nat -> Forall (representable t1) va ->
  (Forall (representable t1) (zip_with Z.min va vb) -> vmin t1 va vb = zip_with Z.min va vb) /\
  (Forall (representable t1) (zip_with Z.max va vb) -> vmax t1 va vb = zip_with Z.max va vb).
Proof.
  intros Hl Hb Ha. unfold vmin, vmax. revert vb Hl. induction Ha as [|a va Ha _ IH]; intros [|b vb] Hl; try done.
  destruct (IH vb) as [I1 I2]; [by injection Hl|]. destruct (C49_min_max_exact_iff_representable t1 a b Hb Ha) as [H1 H2].
  split; cbn [zip_with]; intros [Hx Hy]%list.Forall_cons; f_equal; naive_solver.
Qed.
Theorem C49_min_with_scalar t1 va b : (1 <= it_bits t1)%nat -> Forall (representable t1) va ->
  Forall (fun a => representable t1 (Z.min a b)) va -> vmin_scalar t1 va b = (fun a => Z.min a b) <$> va.
Proof.
  intros Hb Ha Hr. unfold vmin_scalar. apply Forall_fmap_ext_1. rewrite Forall_forall in Ha, Hr |- *. intros a Hin.
  apply C49_min_max_exact_iff_representable; auto.
Qed.
Print Assumptions C49_vectors.
Definition size_t := IType false 64.
Definition int := IType true 32.
(** The mixed signs of the chunk rebuilding: max of a size_t and a possibly negative int is always right; min of a size_t
    with a negative int is not. *)
Theorem C49_max_unsigned_with_signed a b : representable size_t a -> representable int b -> take_max size_t a b = Z.max a b.
Proof.
  intros Ha Hb. apply C49_min_max_exact_iff_representable; [simpl; lia|done|]. unfold representable, it_min, it_max, size_t, int in *. simpl in *. lia.
Qed.
Theorem C49_min_unsigned_with_negative_refuted : take_min size_t 5 (-1) = (2 ^ 64 - 1)%Z /\ Z.min 5 (-1) = (-1)%Z.
Proof. done. Qed.
Example C49_nonvacuous : vmax size_t [0; 7]%Z [-2; 9]%Z = [0; 9]%Z /\ vmin size_t [0; 7]%Z [3; 2]%Z = [0; 2]%Z /\ vmin int [0; -3]%Z [2 ^ 40; 1]%Z = [0; -3]%Z.
Proof. done. Qed.
