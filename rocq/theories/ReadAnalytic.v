(** C63, from the beginning to the end: the analytic calculator (C62) leaves a directory; the Green's function that is opened there computes the signals
    of the field that was sampled. *)
From stdpp Require Import base sets list list_numbers numbers option gmap countable.
From Coq Require Import Reals Lra Lia NArith ZArith.
From Flocq Require Import IEEE754.Binary IEEE754.Bits.
From Verif Require Import IndexSpec NDArrayModel CodecModel StreamerModel StreamerProps KernelModel KernelProps BBoxModel BBoxProps RTreeModel RTreeInsert RTreeProps ChunkMetaModel
  ChunkCacheModel ChunkCacheSpec LibraryModel LibrarySpec LibraryProofs LibraryProofs2 LibraryProofs4 LibraryProofs6 LibraryProofs7 RebuildSpec InterpProps SignalModel SignalProps FillModel FillSpec ReadModel ReadSpec ReadProofs ReadProps AnalyticModel AnalyticSpec AnalyticProofs AnalyticProps IndexSpec LibrarySpec ReadSpec.
Local Open Scope R_scope.
Local Opaque lib_open electric_dipole apply_accumulate_on fill_array_on.

(** The samples of [F] on the grid as real numbers; mirrored at the first radius, zero outside the grid. *)
Definition samples (F : R -> R -> R -> list N) (ar az br bz t_end : R) (nr nz nt : nat) (r z t : Z) (i : nat) : R :=
  if decide ((Z.abs r <= Z.of_nat nr)%Z /\ (0 <= z <= Z.of_nat nz)%Z /\ (0 <= t <= Z.of_nat nt)%Z)
  then float_value (F (coord ar br nr (Z.abs r)) (coord az bz nz z) (coord 0 t_end nt t) !!! i) else 0.
(** The indices at which the overlap is determined: all that are not before the first radius, and of those that are, the ones with a mirror image. *)
Definition determined (nr nz nt : nat) (r z t : Z) : Prop := (0 <= r)%Z \/ ((- r <= Z.of_nat nr)%Z /\ (0 <= z <= Z.of_nat nz)%Z /\ (0 <= t <= Z.of_nat nt)%Z).
(** The sample that an index stands for is finite (or outside, where zero is stored). *)
Definition finite_sample (F : R -> R -> R -> list N) (ar az br bz t_end : R) (nr nz nt : nat) (r z t : Z) : Prop :=
  (Z.abs r <= Z.of_nat nr)%Z -> (0 <= z <= Z.of_nat nz)%Z -> (0 <= t <= Z.of_nat nt)%Z ->
  Forall (fun b => is_finite 24 128 (b32_of_bits (Z.of_N b)) = true) (F (coord ar br nr (Z.abs r)) (coord az bz nz z) (coord 0 t_end nt t)).
(** No infinities and no NaNs. *)
Definition finite_field (F : R -> R -> R -> list N) : Prop := forall r z t, Forall (fun b => is_finite 24 128 (b32_of_bits (Z.of_N b)) = true) (F r z t).

Lemma float_is_zero : float_is 0 0.
Proof. split; [done|]. apply float_zero. by left. Qed.

Lemma sampled_has_samples_at F ar az br bz t_end nr nz nt max_pts S : (forall r z t, length (F r z t) = 2%nat) ->
  sampled_field 2 F ar az br bz t_end nr nz nt max_pts (ls_chunks S) -> has_samples S (fun r z t => determined nr nz nt r z t /\ finite_sample F ar az br bz t_end nr nz nt r z t) (samples F ar az br bz t_end nr nz nt).
Proof.
  intros Hlen [_ _ Hval Hout Hmir] c r z t i Hc Hre [HU Hfin] Hi. unfold samples. case_decide as Hd.
  - assert (comes_back NullSuppressed (F (coord ar br nr (Z.abs r)) (coord az bz nz z) (coord 0 t_end nt t)) (zvalue c [r; z; t])) as Hv.
    { destruct (Z.le_gt_cases 0 r) as [H0|H0]; [rewrite Z.abs_eq by done; apply Hval; try done; lia|]. rewrite Z.abs_neq by lia. apply Hmir; try done; lia. }
    set (v := F _ _ _) in *.
    assert (length v = 2%nat) as Hl by apply Hlen. destruct (lookup_lt_is_Some_2 v i) as [b Hb]; [lia|]. rewrite (list_lookup_total_correct _ _ _ Hb).
    assert (is_finite 24 128 (b32_of_bits (Z.of_N b)) = true) as Hfb. { destruct Hd as (D1 & D2 & D3). pose proof (Hfin D1 D2 D3) as H. fold v in H. exact (Forall_lookup_1 _ _ _ _ H Hb). }
    destruct Hv as [->|(_ & Hz0 & ->)]; [by exists b|]. exists 0%N. rewrite Hl, lookup_replicate_2 by lia. split; [done|]. destruct float_is_zero as [H1 H2]. split; [done|].
    rewrite H2. symmetry. apply float_zero. exact (Forall_lookup_1 _ _ _ _ Hz0 Hb).
  - exists 0%N. unfold determined in HU. rewrite (Hout c r z t Hc Hre ltac:(lia)); [|intros Hx; apply Hd; lia]. rewrite lookup_replicate_2 by done. split; [done|exact float_is_zero].
Qed.
Lemma has_samples_less S (U V : Z -> Z -> Z -> Prop) h : has_samples S V h -> (forall r z t, U r z t -> V r z t) -> has_samples S U h.
Proof. intros H HUV c r z t i Hc Hre HU Hi. apply H; try done. by apply HUV. Qed.
Lemma finite_field_sample F ar az br bz t_end nr nz nt r z t : finite_field F -> finite_sample F ar az br bz t_end nr nz nt r z t.
Proof. intros H _ _ _. apply H. Qed.
Lemma sampled_has_samples F ar az br bz t_end nr nz nt max_pts S : (forall r z t, length (F r z t) = 2%nat) -> finite_field F ->
  sampled_field 2 F ar az br bz t_end nr nz nt max_pts (ls_chunks S) -> has_samples S (determined nr nz nt) (samples F ar az br bz t_end nr nz nt).
Proof. intros Hlen Hfin Hsf. eapply has_samples_less; [exact (sampled_has_samples_at F ar az br bz t_end nr nz nt max_pts S Hlen Hsf)|]. intros r z t H. split; [exact H|]. by apply finite_field_sample. Qed.
Lemma needed_linear nr nz nt r z t : needed linear r z t -> determined nr nz nt r z t.
Proof. intros (H & _). left. cbn in H. lia. Qed.
Lemma sampled_has_overlap vd F ar az br bz t_end nr nz nt max_pts S : sampled_field vd F ar az br bz t_end nr nz nt max_pts (ls_chunks S) -> more_overlap S linear /\ has_overlap S keys.
Proof. intros [_ Hf _ _ _]. split; intros c Hc; destruct (Hf c Hc) as (-> & _); cbn; lia. Qed.

(** A coordinate between [a] and [b] is in the cell of an index from 0 to [n]. *)
Lemma coordinate_cell a b n x : a < b -> (0 < n)%nat -> a <= x <= b -> exists i, cell ((x - a) / ((b - a) / INR n)) i /\ (i <= n)%nat.
Proof.
  intros Hab Hn Hx. assert (0 < INR n) as Hn0 by (by apply lt_0_INR). assert (0 < (b - a) / INR n) as Hd. { apply Rmult_lt_0_compat; [lra|]. by apply Rinv_0_lt_compat. }
  set (d := (b - a) / INR n) in *. assert (INR n * d = b - a) as Ed by (unfold d; field; lra). clearbody d.
  assert (0 <= (x - a) / d <= INR n) as Hp.
  { split; [apply Rmult_le_pos; [lra|]; by apply Rlt_le, Rinv_0_lt_compat|]. apply Rmult_le_reg_r with d; [done|]. unfold Rdiv. rewrite Rmult_assoc, Rinv_l by lra. lra. }
  destruct (cell_exists _ (proj1 Hp)) as (i & Hi). exists i. split; [done|]. destruct Hi as [H1 H2]. apply INR_le. lra.
Qed.
Lemma sampled_served vd F ar az br bz t_end nr nz nt max_pts S r z t : sampled_field vd F ar az br bz t_end nr nz nt max_pts (ls_chunks S) -> ar < br -> az < bz -> 0 < t_end -> (0 < nr)%nat -> (0 < nz)%nat -> (0 < nt)%nat ->
  ar <= r <= br -> az <= z <= bz -> 0 <= t <= t_end -> served S ((r - ar) / ((br - ar) / INR nr)) ((z - az) / ((bz - az) / INR nz)) ((t - 0) / ((t_end - 0) / INR nt)).
Proof.
  intros [Hb Hf _ _ _] H1 H2 H3 N1 N2 N3 Hr Hz Ht. destruct (coordinate_cell ar br nr r H1 N1 Hr) as (i1 & C1 & I1). destruct (coordinate_cell az bz nz z H2 N2 Hz) as (i2 & C2 & I2). destruct (coordinate_cell 0 t_end nt t H3 N3 Ht) as (i3 & C3 & I3).
  destruct (proj2 (Hb [N.of_nat i1; N.of_nat i2; N.of_nat i3])) as (c & Hc & Hcov).
  { apply inbox_at. split; [done|]. split; [done|]. intros [|[|[|i]]] Hi; cbn [length] in Hi; [change (0 <= N.of_nat i1 < N.of_nat nr + 1)%N|change (0 <= N.of_nat i2 < N.of_nat nz + 1)%N|change (0 <= N.of_nat i3 < N.of_nat nt + 1)%N|lia]; lia. }
  exists c. split; [done|]. split; [by destruct (Hf c Hc) as (_ & ? & _)|]. exists i1, i2, i3. exact (conj C1 (conj C2 (conj C3 Hcov))).
Qed.
Lemma steps_fit_pos a b d n : steps_fit a b d n -> a < b /\ (0 < n)%nat /\ 0 < (b - a) / INR n.
Proof.
  intros (Hd & Hn & H1 & _). assert (0 < INR n) as Hn0 by (by apply lt_0_INR). assert (a < b) as H by nra. split; [done|]. split; [done|]. apply Rmult_lt_0_compat; [lra|]. by apply Rinv_0_lt_compat.
Qed.

Lemma Int_part_IZR z : Int_part (IZR z) = z.
Proof. unfold Int_part. rewrite <- (tech_up (IZR z) (z + 1)); [lia|rewrite plus_IZR; lra|rewrite plus_IZR; lra]. Qed.
Lemma linear_node g (a b c : Z) : grid_field linear g (IZR a) (IZR b) (IZR c) = (g a b c 0%nat, g a b c 1%nat).
Proof.
  assert (forall z, frac_part (IZR z) = 0) as Hf. { intros z. unfold frac_part. rewrite Int_part_IZR. lra. }
  assert (forall z, kernel_weight linear (IZR z) 0 = 1 /\ kernel_weight linear (IZR z) 1 = 0) as Hw.
  { intros z. unfold kernel_weight. rewrite Hf. cbn [linear k_kern]. rewrite frac_ok_true by lra. cbn. lra. }
  unfold grid_field. cbn [linear k_support]. change (2 * 1)%nat with 2%nat. rewrite !Int_part_IZR.
  assert (forall f, sum 2 f = f 0%nat + f 1%nat) as Hsum by (intros f; unfold sum; cbn; lra).
  destruct (Hw a) as [A0 A1], (Hw b) as [B0 B1], (Hw c) as [C0 C1].
  assert (forall i, sum 2 (fun j1 => sum 2 (fun j2 => sum 2 (fun j3 => kernel_weight linear (IZR a) j1 * kernel_weight linear (IZR b) j2 * kernel_weight linear (IZR c) j3 * g (a - (Z.of_nat 1 - 1) + Z.of_nat j1)%Z (b - (Z.of_nat 1 - 1) + Z.of_nat j2)%Z (c - (Z.of_nat 1 - 1) + Z.of_nat j3)%Z i))) = g a b c i) as H.
  { intros i. rewrite !Hsum, A0, A1, B0, B1, C0, C1. replace (a - (Z.of_nat 1 - 1) + Z.of_nat 0)%Z with a by lia. replace (b - (Z.of_nat 1 - 1) + Z.of_nat 0)%Z with b by lia. replace (c - (Z.of_nat 1 - 1) + Z.of_nat 0)%Z with c by lia. ring. }
  by rewrite !H.
Qed.

Section end_to_end.
Context (junk : N) (L : lib) (F : R -> R -> R -> list N) (ar az br bz t_end dr dz dt : R) (nr nz nt max_pts : nat) (uuids uuids2 : nat -> bytes) (ord : list N -> list N) (size2 : nat) (cs2 : list nat).
Local Notation run := (electric_dipole 2 junk L F ar az br bz t_end dr dz dt max_pts uuids uuids2 ord).
Local Notation ok := (ok_dipole 2 F ar az br bz t_end dr dz dt nr nz nt max_pts uuids uuids2).
Local Notation step a b n := ((b - a) / INR n).
Local Notation start := (ar, az, 0).
Local Notation interval := (step ar br nr, step az bz nz, step 0 t_end nt).
Local Notation g := (samples F ar az br bz t_end nr nz nt).

Definition usable (r z t : Z) : Prop := determined nr nz nt r z t /\ finite_sample F ar az br bz t_end nr nz nt r z t.
(** The calculation and the opening of the result, and what can be read. *)
Lemma analytic_session K : lib_ok L -> (junk < 2 ^ 32)%N -> ok -> (forall k, ord k ≡ₚ k) -> acceptable_chunk 3 cs2 -> K = linear \/ K = keys ->
  exists d l S, run = Done (d, (start, (br, bz, t_end), interval)) /\ lib_open 2 3 junk L size2 cs2 d = Done l /\ session 2 3 junk L l S /\
    has_samples S usable g /\ has_overlap S K /\ (0 < interval.1.1 /\ 0 < interval.1.2 /\ 0 < interval.2) /\
    forall seg n p s, let G := coords start interval in ar <= radius (along seg n p) <= br -> az <= (along seg n p).2 <= bz -> 0 <= s <= t_end ->
      (k_support K = 1%nat \/ forall k, (0 < k <= nt)%nat -> ind_t G s <> INR k) ->
      off_ends S K (ind_t G s) /\ served S (ind_r G seg n p) (ind_z G seg n p) (ind_t G s).
Proof using.
  intros HL Hj Hok Hord Hcs HK. destruct (C62_dipole 2 junk L F ar az br bz t_end dr dz dt nr nz nt max_pts uuids uuids2 ord size2 cs2 HL Hj Hok Hord Hcs) as (d & l & S & Erun & Eopen & Hs & Hsf).
  destruct (od_fit _ _ _ _ _ _ _ _ _ _ _ _ _ _ _ _ Hok) as (F1 & F2 & F3). apply steps_fit_pos in F1 as (A1 & N1 & D1). apply steps_fit_pos in F2 as (A2 & N2 & D2). apply steps_fit_pos in F3 as (A3 & N3 & D3).
  pose proof (sampled_has_samples_at F ar az br bz t_end nr nz nt max_pts S (fun r z t => proj1 (od_field _ _ _ _ _ _ _ _ _ _ _ _ _ _ _ _ Hok r z t)) Hsf) as Hsam.
  destruct (sampled_has_overlap _ _ _ _ _ _ _ _ _ _ _ _ Hsf) as [O1 O2]. exists d, l, S. split; [exact Erun|]. split; [exact Eopen|]. split; [exact Hs|]. split; [exact Hsam|]. split.
  { destruct HK as [-> | ->]; [|exact O2]. intros c Hc. apply Nat.lt_le_incl, O1, Hc. }
  split; [cbn [fst snd]; exact (conj D1 (conj D2 D3))|]. intros seg n p s G B1 B2 B3 Ho. subst G. split.
  - intros c e1 e2 e3 Hc Ee. destruct Ho as [Ho|Ho]; [left; rewrite Ho; destruct Hsf as [_ Hf _ _ _]; destruct (Hf c Hc) as (-> & _); cbn; lia|]. right.
    destruct Hsf as [Hb _ _ _ _]. pose proof (session_inv 2 3 junk L HL _ _ Hs) as (M & sz & H & Hl). apply elem_of_list_lookup in Hc as (i & Hc).
    pose proof (lrep_len _ _ _ _ _ _ _ Hl) as Hml. destruct (lookup_lt_is_Some_2 M i) as [m Hm]. { apply lookup_lt_Some in Hc. lia. }
    destruct (covers_start _ _ _ _ _ _ _ _ Hl Hm Hc) as (x1 & x2 & x3 & Es & Hcv).
    intros Et. assert (0 < e3)%N as Q3. { destruct Hcv as (_ & _ & Hat). rewrite Es, Ee in Hat. pose proof (Hat 2%nat _ _ _ eq_refl eq_refl eq_refl). lia. }
    assert (covers c [x1; x2; (e3 - 1)%N]) as Hcv'.
    { clear -Hcv Es Ee Q3. destruct Hcv as (_ & _ & Hat). rewrite Es, Ee in Hat. pose proof (Hat 0%nat _ _ _ eq_refl eq_refl eq_refl). pose proof (Hat 1%nat _ _ _ eq_refl eq_refl eq_refl). pose proof (Hat 2%nat _ _ _ eq_refl eq_refl eq_refl).
      unfold covers. rewrite Es, Ee. split; [done|]. split; [done|]. intros [|[|[|k]]] x y w X1 X2 X3; try discriminate X1; cbn in X1, X2, X3; simplify_eq; lia. }
    pose proof (proj1 (Hb _) (ex_intro _ c (conj (elem_of_list_lookup_2 _ _ _ Hc) Hcv'))) as Hin. apply inbox_at in Hin as (_ & _ & Hin). specialize (Hin 2%nat ltac:(cbn; lia)). change (0 <= e3 - 1 < N.of_nat nt + 1)%N in Hin.
    assert (N.to_nat e3 = nt + 1 \/ N.to_nat e3 <= nt)%nat as [E1|E1] by lia.
    + rewrite E1, plus_INR in Et. change (INR 1) with 1 in Et. unfold ind_t in Et. cbn [coords g_start g_interval fst snd] in Et. assert (0 < INR nt) by (by apply lt_0_INR).
      assert ((s - 0) / step 0 t_end nt <= INR nt); [|lra]. apply Rmult_le_reg_r with (step 0 t_end nt); [done|]. unfold Rdiv at 1. rewrite Rmult_assoc, Rinv_l by lra. replace (INR nt * step 0 t_end nt) with t_end by (field; lra). lra.
    + apply (Ho (N.to_nat e3)); [lia|exact Et].
  - apply (sampled_served 2 F ar az br bz t_end nr nz nt max_pts S); try assumption.
Qed.
Lemma analytic_signal K ignore ib sb seg t0 samp weight num n signal :
  lib_ok L -> (junk < 2 ^ 32)%N -> ok -> (forall k, ord k ≡ₚ k) -> acceptable_chunk 3 cs2 -> K = linear \/ K = keys ->
  (1 <= ib)%nat -> (1 <= sb)%nat -> 0 < samp -> s_t0 seg < s_t1 seg -> INR n - 1 < s_t1 seg - s_t0 seg <= INR n ->
  (forall p, (p <= n)%nat -> - (2 ^ 31) <= (time_at seg n p - t0) / samp <= 2 ^ 31 - 1) ->
  (forall p j, (p <= n)%nat -> (j < num)%nat -> time_at seg n p <= t0 + INR j * samp ->
    let G := coords start interval in let s := t0 + INR j * samp - time_at seg n p in
    ar <= radius (along seg n p) <= br /\ az <= (along seg n p).2 <= bz /\ s <= t_end /\
    uses K usable (ind_r G seg n p) (ind_z G seg n p) (ind_t G s) /\ (k_support K = 1%nat \/ forall k, (0 < k <= nt)%nat -> ind_t G s <> INR k)) ->
  (num <= length signal)%nat ->
  exists d l l', run = Done (d, (start, (br, bz, t_end), interval)) /\ lib_open 2 3 junk L size2 cs2 d = Done l /\
    apply_accumulate_on junk start interval ib sb K ignore seg t0 samp num weight signal l =
      Done (imap (fun j y => y + if (j <? num)%nat then direct_sum (coords start interval) (grid_field K g) seg n weight (t0 + INR j * samp) else 0) signal, l').
Proof using.
  intros HL Hj Hok Hord Hcs HK Hib Hsb Hsamp Hseg Hn Hrange Hcov Hlen. destruct (analytic_session K HL Hj Hok Hord Hcs HK) as (d & l & S & Erun & Eopen & Hs & Hsam & Hov & (D1 & D2 & D3) & Hpos).
  destruct (C63_signal junk start interval L HL l S K usable ignore g ib sb seg t0 samp weight num n signal) as (l' & E & _); try assumption.
  - lra.
  - lra.
  - intros p j Hp Hjn Ht. destruct (Hcov p j Hp Hjn Ht) as (B1 & B2 & B3 & Hu & Ho). cbv zeta. split; [exact Hu|]. destruct (Hpos seg n p (t0 + INR j * samp - time_at seg n p) B1 B2 ltac:(lra) Ho) as [H1 H2]. split; [exact H1|by left].
  - exists d, l, l'. exact (conj Erun (conj Eopen E)).
Qed.
Lemma Int_part_bound (a : Z) x : IZR a <= x -> (a <= Int_part x)%Z.
Proof using. intros H. pose proof (archimed x) as [H1 H2]. unfold Int_part. apply Zlt_succ_le. unfold Z.succ. replace (up x - 1 + 1)%Z with (up x) by lia. apply lt_IZR. lra. Qed.
Lemma Int_part_below (a : Z) x : x < IZR a -> (Int_part x < a)%Z.
Proof using. intros H. pose proof (base_Int_part x) as [H1 _]. apply lt_IZR. lra. Qed.
Lemma step_le (k : nat) a b m x : 0 < step a b m -> a + INR k * step a b m <= x -> INR k <= (x - a) / step a b m.
Proof using. intros Hd H. apply Rmult_le_reg_r with (step a b m); [done|]. unfold Rdiv at 2. rewrite Rmult_assoc, Rinv_l by lra. lra. Qed.
Lemma step_lt (k : nat) a b m x : (0 < m)%nat -> 0 < step a b m -> x < b - INR k * step a b m -> (x - a) / step a b m < INR m - INR k.
Proof using.
  intros Hm Hd H. assert (0 < INR m) by (by apply lt_0_INR). apply Rmult_lt_reg_r with (step a b m); [done|]. unfold Rdiv at 1. rewrite Rmult_assoc, Rinv_l by lra.
  assert (INR m * step a b m = b - a) as E by (field; lra). set (st := step a b m) in *. clearbody st. nra.
Qed.

(** The signal of a track in the region is the sum over the track, with the field interpolated between its samples. *)
Theorem C63_analytic_signal ignore ib sb seg t0 samp weight num n signal :
  lib_ok L -> (junk < 2 ^ 32)%N -> ok -> finite_field F -> (forall k, ord k ≡ₚ k) -> acceptable_chunk 3 cs2 ->
  (1 <= ib)%nat -> (1 <= sb)%nat -> 0 < samp -> s_t0 seg < s_t1 seg -> INR n - 1 < s_t1 seg - s_t0 seg <= INR n ->
  (forall p, (p <= n)%nat -> - (2 ^ 31) <= (time_at seg n p - t0) / samp <= 2 ^ 31 - 1) ->
  (forall p j, (p <= n)%nat -> (j < num)%nat -> time_at seg n p <= t0 + INR j * samp ->
    ar <= radius (along seg n p) <= br /\ az <= (along seg n p).2 <= bz /\ t0 + INR j * samp - time_at seg n p <= t_end) ->
  (num <= length signal)%nat ->
  exists d l l', run = Done (d, (start, (br, bz, t_end), interval)) /\ lib_open 2 3 junk L size2 cs2 d = Done l /\
    apply_accumulate_on junk start interval ib sb linear ignore seg t0 samp num weight signal l =
      Done (imap (fun j y => y + if (j <? num)%nat then direct_sum (coords start interval) (grid_field linear g) seg n weight (t0 + INR j * samp) else 0) signal, l').
Proof using.
  intros HL Hj Hok Hfin Hord Hcs Hib Hsb Hsamp Hseg Hn Hrange Hcov Hlen. apply analytic_signal; try assumption; [by left|].
  destruct (od_fit _ _ _ _ _ _ _ _ _ _ _ _ _ _ _ _ Hok) as (F1 & _ & _). apply steps_fit_pos in F1 as (A1 & N1 & D1).
  intros p j Hp Hjn Ht. destruct (Hcov p j Hp Hjn Ht) as (B1 & B2 & B3). cbv zeta. split; [done|]. split; [done|]. split; [done|]. split; [|by left].
  intros j1 j2 j3 (H1 & _) _ _. split; [|by apply finite_field_sample]. left. cbn [linear k_support] in H1. assert (0 <= Int_part (ind_r (coords start interval) seg n p))%Z; [|lia]. apply Int_part_bound. apply (step_le 0); [done|]. cbn [INR]. lra.
Qed.

(** What the cubic kernel needs for a position one step away from the first radius, or one step inside in height and delay, and a delay that is not a multiple of the time step. *)
Lemma keys_usable seg n p s : ok -> finite_field F ->
  let r := radius (along seg n p) in let z := (along seg n p).2 in let G := coords start interval in
  ar <= r <= br -> az <= z <= bz ->
  (ar + step ar br nr <= r \/ (az + step az bz nz <= z < bz - step az bz nz /\ step 0 t_end nt <= s < t_end - step 0 t_end nt)) ->
  (forall k, (0 < k <= nt)%nat -> s <> INR k * step 0 t_end nt) ->
  uses keys usable (ind_r G seg n p) (ind_z G seg n p) (ind_t G s) /\ (k_support keys = 1%nat \/ forall k, (0 < k <= nt)%nat -> ind_t G s <> INR k).
Proof using.
  intros Hok Hfin r z G B1 B2 Hin Hoff. subst r z G.
  destruct (od_fit _ _ _ _ _ _ _ _ _ _ _ _ _ _ _ _ Hok) as (F1 & F2 & F3). apply steps_fit_pos in F1 as (A1 & N1 & D1). apply steps_fit_pos in F2 as (A2 & N2 & D2). apply steps_fit_pos in F3 as (A3 & N3 & D3). split.
  - intros j1 j2 j3 (H1 & H1') (H2 & H2') (H3 & H3'). split; [|by apply finite_field_sample]. cbn [keys k_support] in *.
    assert (0 <= Int_part (ind_r (coords start interval) seg n p))%Z as I1. { apply Int_part_bound, (step_le 0); [done|]. cbn [INR]. lra. }
    destruct Hin as [Hr|(Hz & Hs)].
    + left. assert (1 <= Int_part (ind_r (coords start interval) seg n p))%Z; [|lia]. apply Int_part_bound, (step_le 1); [done|]. change (INR 1) with 1. lra.
    + right. assert (1 <= Int_part (ind_z (coords start interval) seg n p))%Z as I2. { apply Int_part_bound, (step_le 1); [done|]. change (INR 1) with 1. lra. }
      assert (1 <= Int_part (ind_t (coords start interval) s))%Z as I3. { apply Int_part_bound, (step_le 1); [done|]. change (INR 1) with 1. lra. }
      assert (Int_part (ind_z (coords start interval) seg n p) < Z.of_nat nz - 1)%Z as I4. { apply Int_part_below. rewrite minus_IZR, <- INR_IZR_INZ. apply (step_lt 1); [done|done|]. change (INR 1) with 1. lra. }
      assert (Int_part (ind_t (coords start interval) s) < Z.of_nat nt - 1)%Z as I5. { apply Int_part_below. rewrite minus_IZR, <- INR_IZR_INZ. apply (step_lt 1); [done|done|]. change (INR 1) with 1. lra. }
      lia.
  - right. intros k Hk E. apply (Hoff k Hk). rewrite <- E. unfold ind_t. cbn [coords g_start g_interval fst snd]. field. split; [apply not_0_INR; lia|lra].
Qed.

(** The same with the cubic kernel that SignalCalculator uses and whose support is the overlap.  The track is at least one step away from the first radius, or one step inside in height
    and delay (elsewhere the kernel uses corners of the overlap that are not determined); no delay is a multiple of the time step (at the end of a chunk the kernel reads beyond it). *)
Theorem C63_analytic_signal_keys ignore ib sb seg t0 samp weight num n signal :
  lib_ok L -> (junk < 2 ^ 32)%N -> ok -> finite_field F -> (forall k, ord k ≡ₚ k) -> acceptable_chunk 3 cs2 ->
  (1 <= ib)%nat -> (1 <= sb)%nat -> 0 < samp -> s_t0 seg < s_t1 seg -> INR n - 1 < s_t1 seg - s_t0 seg <= INR n ->
  (forall p, (p <= n)%nat -> - (2 ^ 31) <= (time_at seg n p - t0) / samp <= 2 ^ 31 - 1) ->
  (forall p j, (p <= n)%nat -> (j < num)%nat -> time_at seg n p <= t0 + INR j * samp ->
    let r := radius (along seg n p) in let z := (along seg n p).2 in let s := t0 + INR j * samp - time_at seg n p in
    ar <= r <= br /\ az <= z <= bz /\ s <= t_end /\
    (ar + step ar br nr <= r \/ (az + step az bz nz <= z < bz - step az bz nz /\ step 0 t_end nt <= s < t_end - step 0 t_end nt)) /\
    (forall k, (0 < k <= nt)%nat -> s <> INR k * step 0 t_end nt)) ->
  (num <= length signal)%nat ->
  exists d l l', run = Done (d, (start, (br, bz, t_end), interval)) /\ lib_open 2 3 junk L size2 cs2 d = Done l /\
    apply_accumulate_on junk start interval ib sb keys ignore seg t0 samp num weight signal l =
      Done (imap (fun j y => y + if (j <? num)%nat then direct_sum (coords start interval) (grid_field keys g) seg n weight (t0 + INR j * samp) else 0) signal, l').
Proof using.
  intros HL Hj Hok Hfin Hord Hcs Hib Hsb Hsamp Hseg Hn Hrange Hcov Hlen. apply analytic_signal; try assumption; [by right|].
  intros p j Hp Hjn Ht. destruct (Hcov p j Hp Hjn Ht) as (B1 & B2 & B3 & Hin & Hoff). cbv zeta. split; [done|]. split; [done|]. split; [done|]. by apply keys_usable.
Qed.

(** Sampling this Green's function on any grid in the region that ends at grid coordinates (the end of the region, for example): the interpolated field. *)
Theorem C63_analytic_fill p e1 e2 e3 n junkr arr : let q := (coord ar br nr (Z.of_nat e1), coord az bz nz (Z.of_nat e2), coord 0 t_end nt (Z.of_nat e3)) in
  lib_ok L -> (junk < 2 ^ 32)%N -> ok -> finite_field F -> (forall k, ord k ≡ₚ k) -> acceptable_chunk 3 cs2 ->
  (e1 <= nr /\ e2 <= nz /\ e3 <= nt)%nat -> ar <= p.1.1 < q.1.1 -> az <= p.1.2 < q.1.2 -> 0 <= p.2 < q.2 ->
  (2 <= n.1.1 /\ 2 <= n.1.2 /\ 2 <= n.2)%nat -> a_owns arr = true ->
  exists d l arr' l', run = Done (d, (start, (br, bz, t_end), interval)) /\ lib_open 2 3 junk L size2 cs2 d = Done l /\
    fill_array_on junk start interval (br, bz, t_end) linear junkr p q n arr l = Done (arr', l') /\ a_shape arr' = [n.1.1; n.1.2; n.2] /\
    forall o1 o2 o3, (o1 < n.1.1 /\ o2 < n.1.2 /\ o3 < n.2)%nat ->
      aread 2 arr' [o1; o2; o3] = Some (let G := coords start interval in let E := grid_field linear g (sample_r G p q n o1) (sample_z G p q n o2) (sample_t G p q n o3) in [E.1; E.2]).
Proof using.
  intros q HL Hj Hok Hfin Hord Hcs (B1 & B2 & B3) R1 R2 R3 Hnum Hown.
  destruct (C62_dipole 2 junk L F ar az br bz t_end dr dz dt nr nz nt max_pts uuids uuids2 ord size2 cs2 HL Hj Hok Hord Hcs) as (d & l & S & Erun & Eopen & Hs & Hsf).
  destruct (od_fit _ _ _ _ _ _ _ _ _ _ _ _ _ _ _ _ Hok) as (F1 & F2 & F3). apply steps_fit_pos in F1 as (A1 & N1 & D1). apply steps_fit_pos in F2 as (A2 & N2 & D2). apply steps_fit_pos in F3 as (A3 & N3 & D3).
  destruct (od_ints _ _ _ _ _ _ _ _ _ _ _ _ _ _ _ _ Hok) as (J1 & J2 & J3).
  assert (forall a b m e, 0 < (b - a) / INR m -> index_pos a ((b - a) / INR m) (coord a b m (Z.of_nat e)) = INR e) as Hat.
  { intros a b m e Hd. unfold index_pos, coord. rewrite <- INR_IZR_INZ. set (st := (b - a) / INR m) in *. clearbody st. field. lra. }
  assert (forall a b m e, a < b -> (0 < m)%nat -> (e <= m)%nat -> coord a b m (Z.of_nat e) <= b) as Hle.
  { intros a b m e Hab Hm He. assert (0 < INR m) as Hm0 by (by apply lt_0_INR). unfold coord. rewrite <- INR_IZR_INZ. apply le_INR in He. replace b with (a + INR m * ((b - a) / INR m)) at 2 by (field; lra). apply Rplus_le_compat_l, Rmult_le_compat_r; [|done].
    apply Rlt_le, Rmult_lt_0_compat; [lra|by apply Rinv_0_lt_compat]. }
  assert (at_r (coords start interval) q.1.1 = INR e1) as Q1 by (apply Hat; done). assert (at_z (coords start interval) q.1.2 = INR e2) as Q2 by (apply Hat; done). assert (at_t (coords start interval) q.2 = INR e3) as Q3 by (apply Hat; done).
  assert (forall e, trunc (INR e) = N.of_nat e) as Htr. { intros e. unfold trunc. rewrite INR_IZR_INZ, Int_part_IZR. lia. }
  destruct (C63_fill_complete junk start interval L HL l S (br, bz, t_end) linear g p q n junkr arr) as (arr' & l' & E & _ & Hsh & HR).
  - split; try assumption.
    + apply (has_samples_less S _ (determined nr nz nt)); [|intros r z t; apply needed_linear].
      exact (sampled_has_samples F ar az br bz t_end nr nz nt max_pts S (fun r z t => proj1 (od_field _ _ _ _ _ _ _ _ _ _ _ _ _ _ _ _ Hok r z t)) Hfin Hsf).
    + exact (proj1 (sampled_has_overlap _ _ _ _ _ _ _ _ _ _ _ _ Hsf)).
    + by left.
    + exact (conj D1 (conj D2 D3)).
    + pose proof (Hle ar br nr e1 A1 N1 B1) as E1. pose proof (Hle az bz nz e2 A2 N2 B2) as E2. pose proof (Hle 0 t_end nt e3 A3 N3 B3) as E3. cbn [q fst snd] in *. lra.
    + unfold last_ind. rewrite Q1, Q2, Q3, !Htr. assert (2 ^ 31 < 2 ^ 64)%N by done. rewrite !list.Forall_cons. split; [lia|]. split; [lia|]. split; [lia|]. constructor.
  - intros i1 i2 i3 _ H1 H2 H3. rewrite Q1 in H1. rewrite Q2 in H2. rewrite Q3 in H3. apply INR_lt in H1, H2, H3. destruct Hsf as [Hb _ _ _ _]. apply Hb. apply inbox_at. split; [done|]. split; [done|].
    intros [|[|[|i]]] Hi; cbn [length] in Hi; [change (0 <= i1 < N.of_nat nr + 1)%N|change (0 <= i2 < N.of_nat nz + 1)%N|change (0 <= i3 < N.of_nat nt + 1)%N|lia]; lia.
  - intros c s1 s2 s3 _ _. rewrite Q1, Q2, Q3, !Htr, !Nat2N.id. split; [by right|]. split; by right.
  - exists d, l, arr', l'. split; [exact Erun|]. split; [exact Eopen|]. split; [exact E|]. split; [exact Hsh|]. exact HR.
Qed.

(** Sampling it on its own grid gives back the field, exactly. *)
Theorem C63_analytic_grid junkr arr : lib_ok L -> (junk < 2 ^ 32)%N -> ok -> finite_field F -> (forall k, ord k ≡ₚ k) -> acceptable_chunk 3 cs2 -> a_owns arr = true ->
  exists d l arr' l', run = Done (d, (start, (br, bz, t_end), interval)) /\ lib_open 2 3 junk L size2 cs2 d = Done l /\
    fill_array_on junk start interval (br, bz, t_end) linear junkr start (br, bz, t_end) (nr + 1, nz + 1, nt + 1)%nat arr l = Done (arr', l') /\ a_shape arr' = [nr + 1; nz + 1; nt + 1]%nat /\
    forall r z t, (r <= nr)%nat -> (z <= nz)%nat -> (t <= nt)%nat ->
      aread 2 arr' [r; z; t] = Some (float_value <$> F (ar + INR r * step ar br nr) (az + INR z * step az bz nz) (INR t * step 0 t_end nt)).
Proof using.
  intros HL Hj Hok Hfin Hord Hcs Hown. destruct (od_fit _ _ _ _ _ _ _ _ _ _ _ _ _ _ _ _ Hok) as (F1 & F2 & F3). apply steps_fit_pos in F1 as (A1 & N1 & D1). apply steps_fit_pos in F2 as (A2 & N2 & D2). apply steps_fit_pos in F3 as (A3 & N3 & D3).
  assert (forall a b m, (0 < m)%nat -> coord a b m (Z.of_nat m) = b) as Hc. { intros a b m Hm. unfold coord. rewrite <- INR_IZR_INZ. field. apply not_0_INR. lia. }
  destruct (C63_analytic_fill start nr nz nt (nr + 1, nz + 1, nt + 1)%nat junkr arr) as (d & l & arr' & l' & E1 & E2 & E3 & Hsh & HR); try assumption.
  - lia.
  - cbn [fst snd]. rewrite Hc by done. lra.
  - cbn [fst snd]. rewrite Hc by done. lra.
  - cbn [fst snd]. rewrite Hc by done. lra.
  - cbn [fst snd]. lia.
  - rewrite !Hc in E3, HR by done. exists d, l, arr', l'. split; [exact E1|]. split; [exact E2|]. split; [exact E3|]. split; [exact Hsh|]. clear E1 E2 E3. intros r z t Hr Hz Ht. rewrite HR by (cbn [fst snd]; lia).
    assert (forall a b m e, a < b -> (0 < m)%nat -> index_pos a ((b - a) / INR m) (sample_pos a b (m + 1) e) = IZR (Z.of_nat e)) as Hs.
    { intros a b m e Hab Hm. unfold index_pos, sample_pos. rewrite plus_INR, <- INR_IZR_INZ. change (INR 1) with 1. assert (0 < INR m) by (by apply lt_0_INR). field. lra. }
    cbv zeta. cbn [fst snd].
    change (sample_r (coords start interval) start (br, bz, t_end) (nr + 1, nz + 1, nt + 1)%nat r) with (index_pos ar (step ar br nr) (sample_pos ar br (nr + 1) r)).
    change (sample_z (coords start interval) start (br, bz, t_end) (nr + 1, nz + 1, nt + 1)%nat z) with (index_pos az (step az bz nz) (sample_pos az bz (nz + 1) z)).
    change (sample_t (coords start interval) start (br, bz, t_end) (nr + 1, nz + 1, nt + 1)%nat t) with (index_pos 0 (step 0 t_end nt) (sample_pos 0 t_end (nt + 1) t)).
    rewrite !Hs by done. rewrite linear_node. cbv zeta. cbn [fst snd]. unfold samples. rewrite !decide_True by lia. rewrite !Z.abs_eq by lia.
    unfold coord. rewrite <- !INR_IZR_INZ, Rplus_0_l. set (v := F _ _ _). assert (length v = 2%nat) as Hl by apply (od_field _ _ _ _ _ _ _ _ _ _ _ _ _ _ _ _ Hok).
    destruct v as [|v0 [|v1 [|]]]; try discriminate Hl. reflexivity.
Qed.
End end_to_end.
Print Assumptions C63_analytic_signal.
Print Assumptions C63_analytic_signal_keys.
Print Assumptions C63_analytic_fill.
Print Assumptions C63_analytic_grid.

(** * The hypotheses are met: the field of C62_hypotheses_nonvacuous and a track through its region. *)
Definition ra_seg : segment := Segment (1, 0, - 1 / 2) (2, 1, 1 / 2) 0 2 1.
Example C63_finite_nonvacuous : finite_field an_F.
Proof. intros r z t. unfold an_F. destruct (Rlt_dec r t); repeat constructor. Qed.
Example C63_analytic_signal_nonvacuous (size2 : nat) : exists (d : dir) (c : (R * R * R) * (R * R * R) * (R * R * R)) (l l' : clib),
  electric_dipole 2 0 lib0 an_F 0 (-1) (33 / 10) 1 4 1 1 1 2 an_names an_names2 (fun k => k) = Done (d, c) /\ lib_open 2 3 0 lib0 size2 [2; 2; 2]%nat d = Done l /\
  apply_accumulate_on 0 c.1.1 c.2 2 2 linear false ra_seg 0 1 3 1 [0; 0; 0; 5] l =
    Done (imap (fun j y => y + if (j <? 3)%nat then direct_sum (coords c.1.1 c.2) (grid_field linear (samples an_F 0 (-1) (33 / 10) 1 4 3 2 4)) ra_seg 2 1 (0 + INR j * 1) else 0) [0; 0; 0; 5], l').
Proof.
  destruct (C63_analytic_signal 0 lib0 an_F 0 (-1) (33 / 10) 1 4 1 1 1 3 2 4 2 an_names an_names2 (fun k => k) size2 [2; 2; 2]%nat false 2 2 ra_seg 0 1 1 3 2 [0; 0; 0; 5]) as (d & l & l' & E1 & E2 & E3).
  - exact lib0_ok.
  - done.
  - exact C62_hypotheses_nonvacuous.
  - exact C63_finite_nonvacuous.
  - done.
  - split; [done|]. split; [repeat constructor; lia|]. constructor. done.
  - lia.
  - lia.
  - lra.
  - cbn. lra.
  - cbn. lra.
  - intros p Hp. unfold time_at. cbn [ra_seg s_t0 s_t1]. apply le_INR in Hp. pose proof (pos_INR p). change (INR 2) with 2 in *. lra.
  - intros p j Hp Hj _. assert (INR p <= 2) as Hp2 by (change 2 with (INR 2); by apply le_INR). pose proof (pos_INR p). assert (INR j <= 2) as Hj2 by (change 2 with (INR 2); apply le_INR; lia). pose proof (pos_INR j).
    unfold time_at, radius, along. cbn [ra_seg s_t0 s_t1 s_start s_end fst snd]. change (INR 2) with 2 in *. split; [|lra]. split; [apply sqrt_pos|].
    rewrite <- (sqrt_Rsqr (33 / 10)) by lra. apply sqrt_le_1_alt. unfold Rsqr. nra.
  - cbn. lia.
  - exists d, ((0, -1, 0), (33 / 10, 1, 4), ((33 / 10 - 0) / INR 3, (1 - -1) / INR 2, (4 - 0) / INR 4)), l, l'. split; [exact E1|]. split; [exact E2|exact E3].
Qed.
Definition ra_seg2 : segment := Segment (2, 0, - 1 / 2) (2, 1, 1 / 2) (1 / 4) (9 / 4) 1.
Example C63_analytic_signal_keys_nonvacuous (size2 : nat) : exists (d : dir) (c : (R * R * R) * (R * R * R) * (R * R * R)) (l l' : clib),
  electric_dipole 2 0 lib0 an_F 0 (-1) (33 / 10) 1 4 1 1 1 2 an_names an_names2 (fun k => k) = Done (d, c) /\ lib_open 2 3 0 lib0 size2 [2; 2; 2]%nat d = Done l /\
  apply_accumulate_on 0 c.1.1 c.2 2 2 keys false ra_seg2 0 1 4 1 [0; 0; 0; 5] l =
    Done (imap (fun j y => y + if (j <? 4)%nat then direct_sum (coords c.1.1 c.2) (grid_field keys (samples an_F 0 (-1) (33 / 10) 1 4 3 2 4)) ra_seg2 2 1 (0 + INR j * 1) else 0) [0; 0; 0; 5], l').
Proof.
  destruct (C63_analytic_signal_keys 0 lib0 an_F 0 (-1) (33 / 10) 1 4 1 1 1 3 2 4 2 an_names an_names2 (fun k => k) size2 [2; 2; 2]%nat false 2 2 ra_seg2 0 1 1 4 2 [0; 0; 0; 5]) as (d & l & l' & E1 & E2 & E3).
  - exact lib0_ok.
  - done.
  - exact C62_hypotheses_nonvacuous.
  - exact C63_finite_nonvacuous.
  - done.
  - split; [done|]. split; [repeat constructor; lia|]. constructor. done.
  - lia.
  - lia.
  - lra.
  - cbn. lra.
  - cbn. lra.
  - intros p Hp. unfold time_at. cbn [ra_seg2 s_t0 s_t1]. apply le_INR in Hp. pose proof (pos_INR p). change (INR 2) with 2 in *. lra.
  - intros p j Hp Hj _. cbv zeta. assert (INR p <= 2) as Hp2 by (change 2 with (INR 2); by apply le_INR). pose proof (pos_INR p). assert (INR j <= 3) as Hj2 by (replace 3 with (INR 3) by (cbn; lra); apply le_INR; lia). pose proof (pos_INR j).
    assert (2 <= radius (along ra_seg2 2 p) <= 33 / 10) as Hr.
    { unfold radius, along. cbn [ra_seg2 s_start s_end fst snd]. change (INR 2) with 2 in *. split.
      - rewrite <- (sqrt_Rsqr 2) at 1 by lra. apply sqrt_le_1_alt. unfold Rsqr. nra.
      - rewrite <- (sqrt_Rsqr (33 / 10)) by lra. apply sqrt_le_1_alt. unfold Rsqr. nra. }
    split; [lra|]. split; [unfold along; cbn [ra_seg2 s_start s_end fst snd]; change (INR 2) with 2; lra|]. unfold time_at. cbn [ra_seg2 s_t0 s_t1]. change (INR 2) with 2.
    split; [lra|]. split; [left; replace (INR 3) with 3 by (cbn; lra); lra|]. intros k _. replace (INR 4) with 4 by (cbn; lra). rewrite !INR_IZR_INZ. intros E.
    assert (IZR (4 * (Z.of_nat j - Z.of_nat p - Z.of_nat k)) = IZR 1) as E'. { rewrite mult_IZR, !minus_IZR. lra. } apply eq_IZR in E'. lia.
  - cbn. lia.
  - exists d, ((0, -1, 0), (33 / 10, 1, 4), ((33 / 10 - 0) / INR 3, (1 - -1) / INR 2, (4 - 0) / INR 4)), l, l'. split; [exact E1|]. split; [exact E2|exact E3].
Qed.
Example C63_analytic_grid_nonvacuous (size2 : nat) (junkr : R) : exists (d : dir) (c : (R * R * R) * (R * R * R) * (R * R * R)) (l l' : clib) (arr' : ndarr R),
  electric_dipole 2 0 lib0 an_F 0 (-1) (33 / 10) 1 4 1 1 1 2 an_names an_names2 (fun k => k) = Done (d, c) /\ lib_open 2 3 0 lib0 size2 [2; 2; 2]%nat d = Done l /\
  fill_array_on 0 c.1.1 c.2 c.1.2 linear junkr c.1.1 c.1.2 (4, 3, 5)%nat (anew 2 junkr [1; 1; 1]%nat) l = Done (arr', l') /\ aread 2 arr' [0; 1; 2]%nat = Some [float_value 1; float_value 2].
Proof.
  destruct (C63_analytic_grid 0 lib0 an_F 0 (-1) (33 / 10) 1 4 1 1 1 3 2 4 2 an_names an_names2 (fun k => k) size2 [2; 2; 2]%nat junkr (anew 2 junkr [1; 1; 1]%nat)) as (d & l & arr' & l' & E1 & E2 & E3 & _ & HR).
  - exact lib0_ok.
  - done.
  - exact C62_hypotheses_nonvacuous.
  - exact C63_finite_nonvacuous.
  - done.
  - split; [done|]. split; [repeat constructor; lia|]. constructor. done.
  - done.
  - exists d, ((0, -1, 0), (33 / 10, 1, 4), ((33 / 10 - 0) / INR 3, (1 - -1) / INR 2, (4 - 0) / INR 4)), l, l', arr'. split; [exact E1|]. split; [exact E2|]. split; [exact E3|].
    rewrite HR by lia. unfold an_F. destruct (Rlt_dec _ _) as [_|n]; [done|]. destruct n. change (INR 0) with 0. change (INR 2) with 2. replace (INR 4) with 4 by (cbn; lra). lra.
Qed.
