(** C42: interpolation of 3-d arrays. *)
From stdpp Require Import base list list_numbers numbers option.
From Coq Require Import Reals ZArith Lra Lia.
From Verif Require Import IndexSpec LoopsModel LoopsProofs NDArrayModel NDArrayProofs NDArrayOps NDArrayProps KernelModel KernelProps InterpModel.

Local Open Scope R_scope.

(** * Tabulated vectors *)
Definition vec (n : nat) (g : nat -> R) : list R := g <$> seq 0 n.
Definition tab (n vd : nat) (g : nat -> nat -> R) : list (list R) := (fun s => vec vd (g s)) <$> seq 0 n.

Lemma vec_length n g : length (vec n g) = n.
Proof. unfold vec. by rewrite fmap_length, seq_length. Qed.
Lemma vec_ext n g h : (forall i, (i < n)%nat -> g i = h i) -> vec n g = vec n h.
Proof. intros H. unfold vec. apply map_ext_in. intros i Hi%in_seq. apply H. lia. Qed.
Lemma vec_lookup n g i : (i < n)%nat -> vec n g !! i = Some (g i).
Proof. intros. unfold vec. rewrite list_lookup_fmap, lookup_seq_lt by done. done. Qed.
Lemma tab_ext n vd g h : (forall s c, (s < n)%nat -> (c < vd)%nat -> g s c = h s c) -> tab n vd g = tab n vd h.
Proof. intros H. unfold tab. apply map_ext_in. intros s Hs%in_seq. apply vec_ext. intros. apply H; lia. Qed.
Lemma tab_lookup n vd g s : (s < n)%nat -> tab n vd g !! s = Some (vec vd (g s)).
Proof. intros. unfold tab. rewrite list_lookup_fmap, lookup_seq_lt by done. done. Qed.
Lemma tab_insert n vd g s h : (s < n)%nat ->
  <[s := vec vd h]> (tab n vd g) = tab n vd (fun s' c => if decide (s' = s) then h c else g s' c).
Proof.
  intros Hs. apply list_eq. intros i. destruct (decide (i < n)%nat) as [Hi|Hi].
  - rewrite tab_lookup by done. destruct (decide (i = s)) as [->|].
    + rewrite list_lookup_insert by (unfold tab; by rewrite fmap_length, seq_length). done.
    + rewrite list_lookup_insert_ne by done. by rewrite tab_lookup.
  - rewrite !lookup_ge_None_2; [done|..]; rewrite ?insert_length; unfold tab; rewrite fmap_length, seq_length; lia.
Qed.
Lemma vec_zip n g h : zip_with Rplus (vec n g) (vec n h) = vec n (fun i => g i + h i).
Proof. unfold vec. rewrite zip_with_fmap_l, zip_with_fmap_r, zip_with_diag. done. Qed.
Lemma vec_fmap n g f : f <$> vec n g = vec n (fun i => f (g i)).
Proof. unfold vec. by rewrite <- list_fmap_compose. Qed.
Lemma vec_const n x : replicate n x = vec n (fun _ => x).
Proof. apply list_eq_same_length with n; rewrite ?vec_length, ?replicate_length; try done. intros i a b Hi. rewrite vec_lookup, lookup_replicate_2 by done. congruence. Qed.

(** Sum over the first [n] naturals. *)
Definition sum (n : nat) (f : nat -> R) : R := Rsum (f <$> seq 0 n).
Lemma sum_ext n f g : (forall i, (i < n)%nat -> f i = g i) -> sum n f = sum n g.
Proof. intros H. unfold sum. f_equal. apply map_ext_in. intros i Hi%in_seq. apply H. lia. Qed.

Lemma Rsum_cons a l : Rsum (a :: l) = a + Rsum l. Proof. done. Qed.
Lemma sum_S n f : sum (S n) f = sum n f + f n.
Proof. unfold sum. rewrite seq_S, fmap_app, Rsum_app. simpl. lra. Qed.
Lemma sum_mul n f w : sum n f * w = sum n (fun i => f i * w).
Proof. unfold sum. induction (seq 0 n) as [|a l IH]; [simpl; lra|]. rewrite !fmap_cons, !Rsum_cons, <- IH. lra. Qed.
Lemma sum_shift a n f : Rsum (f <$> seq a n) = sum n (fun j => f (a + j)%nat).
Proof. unfold sum. rewrite <- (fmap_add_seq 0 a n) || idtac. f_equal. apply list_eq. intros i. rewrite !list_lookup_fmap.
  destruct (decide (i < n)%nat). - rewrite !lookup_seq_lt by done. done. - rewrite !lookup_seq_ge by lia. done. Qed.

(** * Folds over tabulated buffers *)
Lemma foldM_tab {B} n vd (step : list (list R) -> B -> option (list (list R))) (h : B -> nat -> nat -> R) l :
  (forall b g, b ∈ l -> step (tab n vd g) b = Some (tab n vd (fun s c => g s c + h b s c))) ->
  forall g, foldM step (tab n vd g) l = Some (tab n vd (fun s c => g s c + Rsum ((fun b => h b s c) <$> l))).
Proof.
  intros Hstep. induction l as [|b l IH]; intros g; cbn [foldM].
  - f_equal. apply tab_ext. intros. simpl. lra.
  - rewrite Hstep by left. cbn [mbind option_bind]. rewrite IH by (intros; apply Hstep; by right).
    f_equal. apply tab_ext. intros. rewrite fmap_cons, Rsum_cons. lra.
Qed.
Lemma foldM_vec {B} vd (step : list R -> B -> option (list R)) (h : B -> nat -> R) l :
  (forall b g, b ∈ l -> step (vec vd g) b = Some (vec vd (fun c => g c + h b c))) ->
  forall g, foldM step (vec vd g) l = Some (vec vd (fun c => g c + Rsum ((fun b => h b c) <$> l))).
Proof.
  intros Hstep. induction l as [|b l IH]; intros g; cbn [foldM].
  - f_equal. apply vec_ext. intros. simpl. lra.
  - rewrite Hstep by left. cbn [mbind option_bind]. rewrite IH by (intros; apply Hstep; by right).
    f_equal. apply vec_ext. intros. rewrite fmap_cons, Rsum_cons. lra.
Qed.

Lemma samples_loop n vd (step : list (list R) -> nat -> option (list (list R))) (h : nat -> nat -> R) :
  (forall s g, (s < n)%nat -> step (tab n vd g) s = Some (<[s := vec vd (fun c => g s c + h s c)]> (tab n vd g))) ->
  forall g, foldM step (tab n vd g) (seq 0 n) = Some (tab n vd (fun s c => g s c + h s c)).
Proof.
  intros Hstep.
  assert (forall m a g, (a + m <= n)%nat -> foldM step (tab n vd g) (seq a m) =
            Some (tab n vd (fun s c => if decide (a <= s < a + m)%nat then g s c + h s c else g s c))) as Hgen.
  { induction m as [|m IH]; intros a g Ham; cbn [seq foldM].
    - f_equal. apply tab_ext. intros. by rewrite decide_False by lia.
    - rewrite Hstep by lia. cbn [mbind option_bind]. rewrite tab_insert by lia. rewrite IH by lia. f_equal.
      apply tab_ext. intros s c Hs Hc. cbv beta. destruct (decide (s = a)) as [->|].
      + rewrite decide_False by lia. by rewrite decide_True by lia.
      + destruct (decide (S a <= s < S a + m)%nat), (decide (a <= s < a + S m)%nat); try done; lia. }
  intros g. rewrite Hgen by lia. f_equal. apply tab_ext. intros. by rewrite decide_True by lia.
Qed.

(** * One dimension *)
Lemma mapM_vec {B} (f : nat -> option B) (g : nat -> B) n :
  (forall j, (j < n)%nat -> f j = Some (g j)) -> mapM f (seq 0 n) = Some (g <$> seq 0 n).
Proof.
  intros H. rewrite (mapM_Some_const f g); [done|]. intros j Hj%elem_of_seq. apply H. lia.
Qed.

Lemma interpolate_1d_spec vd kern data p (g : nat -> nat -> R) :
  (forall i j, (i < length kern)%nat -> (j < vd)%nat -> peek data (p + Z.of_nat (vd * i + j)) = Some (g i j)) ->
  interpolate_1d vd kern data p = Some (vec vd (fun c => sum (length kern) (fun i => nth i kern 0 * g i c))).
Proof.
  intros Hg. unfold interpolate_1d. rewrite vec_const.
  rewrite (foldM_vec vd _ (fun i c => nth i kern 0 * g i c)).
  - f_equal. apply vec_ext. intros c Hc. unfold sum. lra.
  - intros i a Hi%elem_of_seq. destruct (lookup_lt_is_Some_2 kern i ltac:(lia)) as [w Hw]. rewrite Hw. cbn [mbind option_bind].
    rewrite (mapM_vec _ (g i)) by (intros; apply Hg; lia). cbn [mbind option_bind].
    change (g i <$> seq 0 vd) with (vec vd (g i)). rewrite vec_fmap, vec_zip. f_equal. apply vec_ext. intros c Hc.
    by rewrite (nth_lookup_Some _ _ _ _ Hw).
Qed.

(** * The whole stencil *)
(** Component [c] of the element at [x]. *)
Definition comp (vd : nat) (arr : ndarr R) (x : list nat) (c : nat) : R := nth c (default [] (aread vd arr x)) 0.

(** The stencil of integer position [o] lies inside an axis of [n] elements. *)
Definition has_room (K : kernel) (n o : nat) : Prop := (k_support K - 1 <= o)%nat /\ (o + k_support K < n)%nat.

(** The interpolation sum with weights [w1], [w2], [w3] over the elements around [o1], [o2], [o3]. *)
Definition interp_sum (K : kernel) (vd : nat) (arr : ndarr R) (w1 w2 w3 : list R) (o1 o2 o3 c : nat) : R :=
  let ks := (2 * k_support K)%nat in let off := (k_support K - 1)%nat in
  sum ks (fun j1 => sum ks (fun j2 => sum ks (fun j3 =>
    nth j1 w1 0 * nth j2 w2 0 * nth j3 w3 0 * comp vd arr [o1 - off + j1; o2 - off + j2; o3 - off + j3]%nat c))).

Definition good_kernel (K : kernel) : Prop :=
  (1 <= k_support K)%nat /\ forall f w, k_kern K f = Some w -> length w = (2 * k_support K)%nat.
Lemma good_linear : good_kernel linear.
Proof. split; [simpl; lia|]. intros f w. unfold linear; simpl. destruct (frac_ok f); [|done]. by intros [= <-]. Qed.
Lemma good_keys : good_kernel keys.
Proof. split; [simpl; lia|]. intros f w. unfold keys; simpl. destruct (frac_ok f); [|done]. by intros [= <-]. Qed.

Lemma modf_spec o f : 0 <= f < 1 -> modf (INR o + f) = Some (o, f).
Proof.
  intros Hf. pose proof (pos_INR o). unfold modf. destruct (Rle_dec 0 (INR o + f)); [|lra].
  assert (Int_part (INR o + f) = Z.of_nat o) as Hi.
  { symmetry. unfold Int_part. assert (up (INR o + f) = (Z.of_nat o + 1)%Z) as ->; [|lia].
    symmetry. apply tech_up; rewrite plus_IZR, <- INR_IZR_INZ; simpl; lra. }
  unfold frac_part. rewrite Hi, Nat2Z.id, <- INR_IZR_INZ. do 2 f_equal. ring.
Qed.

Lemma read_scalar vd arr n1 n2 n3 i1 i2 i3 j :
  api_array vd arr -> a_shape arr = [n1; n2; n3] -> (i1 < n1)%nat -> (i2 < n2)%nat -> (i3 < n3)%nat -> (j < vd)%nat ->
  peek (a_data arr) (Z.of_nat (flat_ind (a_strides arr) (a_off arr) [i1; i2; 0%nat]) + Z.of_nat vd * Z.of_nat i3 + Z.of_nat j)
    = Some (comp vd arr [i1; i2; i3] j).
Proof.
  intros Hapi Hsh H1 H2 H3 Hj. pose proof (api_array_wf _ _ Hapi) as Hwf.
  assert (in_shape (a_shape arr) [i1; i2; i3]) as Hin.
  { rewrite Hsh. apply in_shape_forall2. repeat constructor; done. }
  destruct (aread_Some vd arr [i1; i2; i3]) as (v & Hv & Hl); [by apply wf_owned_wf|done|].
  assert (flat_ind (a_strides arr) (a_off arr) [i1; i2; i3] = flat_ind (a_strides arr) (a_off arr) [i1; i2; 0] + vd * i3)%nat as Hf.
  { destruct Hwf as (_ & -> & -> & _ & _). rewrite Hsh. unfold flat_ind, compute_strides. simpl. lia. }
  unfold comp. rewrite Hv. cbn [default]; unfold Datatypes.id. rewrite aread_eq in Hv by done. rewrite Hf in Hv.
  apply block_lookup in Hv as [_ Hlk]. unfold peek.
  destruct (Z.leb_spec 0 (Z.of_nat (flat_ind (a_strides arr) (a_off arr) [i1; i2; 0%nat]) + Z.of_nat vd * Z.of_nat i3 + Z.of_nat j)); [|lia].
  replace (Z.to_nat _) with (flat_ind (a_strides arr) (a_off arr) [i1; i2; 0] + vd * i3 + j)%nat by lia.
  destruct (lookup_lt_is_Some_2 v j ltac:(lia)) as [y Hy]. rewrite (nth_lookup_Some _ _ _ _ Hy).
  rewrite <- Hlk by lia. done.
Qed.

Lemma stencil_room K n o : has_room K n o -> stencil (k_support K) o = seq (o - (k_support K - 1)) (2 * k_support K).
Proof. intros [H _]. unfold stencil. destruct (Nat.leb_spec (k_support K - 1) o); [done|lia]. Qed.

Lemma interpolate_spec K vd arr n1 n2 n3 o1 f1 o2 f2 w1 w2 start delta n (o3 : nat -> nat) (f3 : nat -> R) (w3 : nat -> list R) g :
  good_kernel K -> api_array vd arr -> a_shape arr = [n1; n2; n3] ->
  0 <= f1 < 1 -> 0 <= f2 < 1 -> k_kern K f1 = Some w1 -> k_kern K f2 = Some w2 ->
  has_room K n1 o1 -> has_room K n2 o2 ->
  (forall s, (s < n)%nat -> start + INR s * delta = INR (o3 s) + f3 s /\ 0 <= f3 s < 1 /\
     k_kern K (f3 s) = Some (w3 s) /\ has_room K n3 (o3 s)) ->
  interpolate K vd arr (tab n vd g) (INR o1 + f1) (INR o2 + f2) start delta n
    = Some (tab n vd (fun s c => g s c + interp_sum K vd arr w1 w2 (w3 s) o1 o2 (o3 s) c)).
Proof.
  intros [Hsup Hlen] Hapi Hsh Hf1 Hf2 Hk1 Hk2 Hr1 Hr2 Hs. unfold interpolate.
  rewrite (modf_spec o1 f1), (modf_spec o2 f2) by done. cbn [mbind option_bind]. rewrite Hk1, Hk2. cbn [mbind option_bind].
  set (off := (k_support K - 1)%nat). set (ks := (2 * k_support K)%nat).
  rewrite (stencil_room K n1 o1), (stencil_room K n2 o2) by done. fold off ks.
  pose proof (Hlen _ _ Hk1) as L1. pose proof (Hlen _ _ Hk2) as L2. fold ks in L1, L2.
  destruct Hr1 as [R1 R1'], Hr2 as [R2 R2']. fold off in R1, R2.
  (* the innermost loop *)
  assert (forall i1 i2 (c1 c2 : R), (i1 < n1)%nat -> (i2 < n2)%nat -> forall g,
    foldM (fun (ret : list (list R)) s =>
        '(ii, fi) ← modf (start + INR s * delta)%R;
        ik ← k_kern K fi;
        v ← interpolate_1d vd ik (a_data arr) (Z.of_nat (flat_ind (a_strides arr) (a_off arr) [i1; i2; 0%nat]) + Z.of_nat vd * (Z.of_nat ii - Z.of_nat off))%Z;
        old ← ret !! s;
        Some (<[s := zip_with Rplus old ((fun x => x * (c1 * c2))%R <$> v)]> ret)) (tab n vd g) (seq 0 n)
    = Some (tab n vd (fun s c => g s c + sum ks (fun j3 => nth j3 (w3 s) 0 * comp vd arr [i1; i2; o3 s - off + j3]%nat c) * (c1 * c2)))) as Hinner.
  { intros i1 i2 c1 c2 Hi1 Hi2 g'. apply samples_loop. intros s a Hsn.
    destruct (Hs s Hsn) as (Hpos & Hf3 & Hk3 & [Hr3 Hr3']). fold off in Hr3. rewrite Hpos, modf_spec by done. cbn [mbind option_bind].
    rewrite Hk3. cbn [mbind option_bind]. pose proof (Hlen _ _ Hk3) as L3. fold ks in L3.
    rewrite (interpolate_1d_spec _ _ _ _ (fun i j => comp vd arr [i1; i2; o3 s - off + i]%nat j)).
    2:{ intros i j Hi Hj. rewrite <- (read_scalar vd arr n1 n2 n3) by (try done; unfold off, ks in *; lia).
        f_equal. rewrite !Nat2Z.inj_add, Nat2Z.inj_mul, Nat2Z.inj_sub by done. ring. }
    cbn [mbind option_bind]. rewrite tab_lookup by done. cbn [mbind option_bind]. rewrite vec_fmap, vec_zip, L3. done. }
  rewrite (foldM_tab n vd _ (fun i1 s c => Rsum ((fun i2 =>
     sum ks (fun j3 => nth j3 (w3 s) 0 * comp vd arr [i1; i2; o3 s - off + j3]%nat c) * (nth (i1 - (o1 - off)) w1 0 * nth (i2 - (o2 - off)) w2 0)) <$> seq (o2 - off) ks))).
  2:{ intros i1 a Hi1%elem_of_seq.
      rewrite (foldM_tab n vd _ (fun i2 s c => sum ks (fun j3 => nth j3 (w3 s) 0 * comp vd arr [i1; i2; o3 s - off + j3]%nat c) * (nth (i1 - (o1 - off)) w1 0 * nth (i2 - (o2 - off)) w2 0))).
      - done.
      - intros i2 b Hi2%elem_of_seq. cbv zeta.
        destruct (lookup_lt_is_Some_2 w1 (i1 - (o1 - off))) as [c1 Hc1]; [lia|].
        destruct (lookup_lt_is_Some_2 w2 (i2 - (o2 - off))) as [c2 Hc2]; [lia|].
        rewrite Hc1. cbn [mbind option_bind]. rewrite Hc2. cbn [mbind option_bind].
        rewrite (nth_lookup_Some _ _ 0 _ Hc1), (nth_lookup_Some _ _ 0 _ Hc2). apply Hinner; unfold off, ks in *; lia. }
  f_equal. apply tab_ext. intros s c Hsn Hc. f_equal. unfold interp_sum. fold off ks.
  rewrite sum_shift. apply sum_ext. intros j1 Hj1. rewrite sum_shift. apply sum_ext. intros j2 Hj2.
  rewrite sum_mul. apply sum_ext. intros j3 Hj3.
  replace (o1 - off + j1 - (o1 - off))%nat with j1 by lia. replace (o2 - off + j2 - (o2 - off))%nat with j2 by lia. ring.
Qed.

(** * C42 *)
(** The buffer of [n] cleared vectors, as the callers pass it. *)
Definition cleared (n vd : nat) : list (list R) := replicate n (replicate vd 0).
Lemma cleared_tab n vd : cleared n vd = tab n vd (fun _ _ => 0).
Proof.
  unfold cleared. rewrite vec_const. apply list_eq_same_length with n; rewrite ?replicate_length; try done.
  { unfold tab. by rewrite fmap_length, seq_length. }
  intros i a b Hi. rewrite tab_lookup, lookup_replicate_2 by done. congruence.
Qed.
Lemma aread_vec vd arr x : api_array vd arr -> in_shape (a_shape arr) x -> aread vd arr x = Some (vec vd (comp vd arr x)).
Proof.
  intros Ha Hx. destruct (aread_Some vd arr x) as (v & Hv & Hl); [by apply wf_owned_wf, api_array_wf|done|]. rewrite Hv. f_equal.
  apply list_eq_same_length with vd; [by rewrite vec_length|done|]. intros i a b Hi Hav. rewrite vec_lookup by done. intros [= <-].
  unfold comp. rewrite Hv. change (a = nth i v 0). by rewrite (nth_lookup_Some _ _ 0 _ Hav).
Qed.

(** Sampling at positions [outer1], [outer2] and [start + s*delta] gives, for every sample, the kernel-weighted sum over
    the stencil around it; never a read outside the array if the stencils have room. *)
Theorem C42_interpolation_is_weighted_sum K vd arr n1 n2 n3 o1 f1 o2 f2 w1 w2 start delta n o3 f3 w3 :
  K = linear \/ K = keys -> api_array vd arr -> a_shape arr = [n1; n2; n3] ->
  0 <= f1 < 1 -> 0 <= f2 < 1 -> k_kern K f1 = Some w1 -> k_kern K f2 = Some w2 ->
  has_room K n1 o1 -> has_room K n2 o2 ->
  (forall s, (s < n)%nat -> start + INR s * delta = INR (o3 s) + f3 s /\ 0 <= f3 s < 1 /\
     k_kern K (f3 s) = Some (w3 s) /\ has_room K n3 (o3 s)) ->
  exists out, interpolate K vd arr (cleared n vd) (INR o1 + f1) (INR o2 + f2) start delta n = Some out /\ length out = n /\
    forall s, (s < n)%nat -> out !! s = Some (vec vd (interp_sum K vd arr w1 w2 (w3 s) o1 o2 (o3 s))).
Proof.
  intros HK Ha Hsh Hf1 Hf2 Hk1 Hk2 Hr1 Hr2 Hs. assert (good_kernel K) as HK' by (destruct HK as [->| ->]; auto using good_linear, good_keys).
  eexists. rewrite cleared_tab. erewrite interpolate_spec; eauto. split; [done|]. split; [unfold tab; by rewrite fmap_length, seq_length|].
  intros s Hsn. rewrite tab_lookup by done. f_equal. apply vec_ext. intros. lra.
Qed.
Print Assumptions C42_interpolation_is_weighted_sum.

(** At integer coordinates: the stored vectors. *)
Lemma interp_sum_node K vd arr o1 o2 o3 c :
  K = linear \/ K = keys ->
  exists w, k_kern K 0 = Some w /\ ((k_support K - 1 <= o1)%nat -> (k_support K - 1 <= o2)%nat -> (k_support K - 1 <= o3)%nat ->
    interp_sum K vd arr w w w o1 o2 o3 c = comp vd arr [o1; o2; o3] c).
Proof.
  intros [-> | ->].
  - exists [1; 0]. split; [unfold linear; simpl; rewrite frac_ok_true by lra; repeat f_equal; lra|]. intros _ _ _.
    unfold interp_sum, sum. simpl. rewrite !Nat.sub_0_r, !Nat.add_0_r. ring.
  - exists [0; 1; 0; 0]. split; [rewrite keys_weights by lra; repeat f_equal; lra|]. simpl. intros H1 H2 H3.
    unfold interp_sum, sum. simpl. rewrite !Nat.sub_add by done. ring.
Qed.

Theorem C42_nodes_return_stored_elements K vd arr n1 n2 n3 o1 o2 o3 d n :
  K = linear \/ K = keys -> api_array vd arr -> a_shape arr = [n1; n2; n3] ->
  has_room K n1 o1 -> has_room K n2 o2 -> (forall s, (s < n)%nat -> has_room K n3 (o3 + s * d)) ->
  exists out, interpolate K vd arr (cleared n vd) (INR o1) (INR o2) (INR o3) (INR d) n = Some out /\ length out = n /\
    forall s, (s < n)%nat -> out !! s = aread vd arr [o1; o2; o3 + s * d]%nat.
Proof.
  intros HK Ha Hsh Hr1 Hr2 Hr3.
  destruct (interp_sum_node K vd arr 0 0 0 0 HK) as (w & Hw & _).
  destruct (C42_interpolation_is_weighted_sum K vd arr n1 n2 n3 o1 0 o2 0 w w (INR o3) (INR d) n
              (fun s => o3 + s * d)%nat (fun _ => 0) (fun _ => w)) as (out & Hout & Hl & Hv); auto; [lra|lra|..].
  { intros s Hsn. split_and!; auto; try lra. rewrite plus_INR, mult_INR. lra. }
  rewrite !Rplus_0_r in Hout. exists out. split_and!; auto. intros s Hsn. rewrite Hv by done.
  rewrite aread_vec; [|done|].
  2:{ rewrite Hsh. apply in_shape_forall2. destruct (Hr3 s Hsn), Hr1, Hr2. assert (1 <= k_support K)%nat by (destruct HK as [->| ->]; simpl; lia).
      repeat constructor; lia. }
  f_equal. apply vec_ext. intros c Hc. destruct (interp_sum_node K vd arr o1 o2 (o3 + s * d) c HK) as (w' & Hw' & Heq).
  assert (w' = w) as -> by congruence. destruct (Hr3 s Hsn), Hr1, Hr2. apply Heq; lia.
Qed.
Print Assumptions C42_nodes_return_stored_elements.

(** A constant array gives the constant everywhere. *)
Lemma sum_const_w n (w : list R) x : length w = n -> sum n (fun j => nth j w 0 * x) = Rsum w * x.
Proof.
  intros <-. rewrite <- sum_mul. f_equal. unfold sum. f_equal. apply list_eq. intros i. rewrite list_lookup_fmap.
  destruct (decide (i < length w)%nat).
  - rewrite lookup_seq_lt by done. destruct (lookup_lt_is_Some_2 w i) as [y Hy]; [done|]. rewrite Hy. simpl. by rewrite (nth_lookup_Some _ _ 0 _ Hy).
  - rewrite lookup_seq_ge by lia. by rewrite lookup_ge_None_2 by lia.
Qed.
Lemma kern_total K f : K = linear \/ K = keys -> 0 <= f < 1 ->
  exists w, k_kern K f = Some w /\ Rsum w = 1 /\ length w = (2 * k_support K)%nat.
Proof.
  intros HK Hf. destruct (C41_partition_of_unity f Hf) as [(w & H1 & H2 & H3) (w' & H1' & H2' & H3')].
  destruct HK as [->| ->]; eauto.
Qed.
Theorem C42_constant_array K vd arr n1 n2 n3 (u : nat -> R) o1 f1 o2 f2 start delta n (o3 : nat -> nat) (f3 : nat -> R) :
  K = linear \/ K = keys -> api_array vd arr -> a_shape arr = [n1; n2; n3] ->
  (forall x, in_shape [n1; n2; n3] x -> aread vd arr x = Some (vec vd u)) ->
  0 <= f1 < 1 -> 0 <= f2 < 1 -> has_room K n1 o1 -> has_room K n2 o2 ->
  (forall s, (s < n)%nat -> start + INR s * delta = INR (o3 s) + f3 s /\ 0 <= f3 s < 1 /\ has_room K n3 (o3 s)) ->
  interpolate K vd arr (cleared n vd) (INR o1 + f1) (INR o2 + f2) start delta n = Some (replicate n (vec vd u)).
Proof.
  intros HK Ha Hsh Hc Hf1 Hf2 Hr1 Hr2 Hs.
  destruct (kern_total K f1 HK Hf1) as (w1 & Hw1 & S1 & L1). destruct (kern_total K f2 HK Hf2) as (w2 & Hw2 & S2 & L2).
  destruct (C42_interpolation_is_weighted_sum K vd arr n1 n2 n3 o1 f1 o2 f2 w1 w2 start delta n o3 f3
              (fun s => default [] (k_kern K (f3 s)))) as (out & -> & Hl & Hv); auto.
  { intros s Hsn. destruct (Hs s Hsn) as (? & Hf3 & ?). destruct (kern_total K _ HK Hf3) as (w3 & Hw3 & _). rewrite Hw3. auto. }
  f_equal. apply list_eq_same_length with n; [by rewrite replicate_length|done|]. intros s a b Hsn Ha' Hb.
  rewrite lookup_replicate_2 in Hb by done. injection Hb as <-. rewrite Hv in Ha' by done. injection Ha' as <-. apply vec_ext. intros c Hcd.
  destruct (Hs s Hsn) as (_ & Hf3 & Hr3). destruct (kern_total K _ HK Hf3) as (w3 & Hw3 & S3 & L3). rewrite Hw3. cbn [default]; unfold Datatypes.id.
  unfold interp_sum. set (ks := (2 * k_support K)%nat) in *. set (off := (k_support K - 1)%nat).
  transitivity (sum ks (fun j1 => nth j1 w1 0 * (sum ks (fun j2 => nth j2 w2 0 * (sum ks (fun j3 => nth j3 w3 0 * u c)))))).
  - apply sum_ext. intros j1 Hj1. rewrite Rmult_comm, sum_mul. apply sum_ext. intros j2 Hj2.
    rewrite (Rmult_assoc (nth j2 w2 0)), Rmult_comm, (Rmult_comm _ (nth j1 w1 0)) || idtac.
    rewrite (Rmult_comm (nth j2 w2 0)), Rmult_assoc, sum_mul. apply sum_ext. intros j3 Hj3.
    assert (comp vd arr [o1 - off + j1; o2 - off + j2; o3 s - off + j3]%nat c = u c) as ->; [|unfold Datatypes.id; ring].
    unfold comp. rewrite Hc.
    + cbn [default]; unfold Datatypes.id. apply nth_lookup_Some. by apply vec_lookup.
    + destruct Hr1, Hr2, Hr3. apply in_shape_forall2. unfold ks, off in *. repeat constructor; lia.
  - rewrite !sum_const_w by done. rewrite S1, S2, S3. ring.
Qed.
Print Assumptions C42_constant_array.

(** With the linear kernel the value is the trilinear blend of the eight surrounding elements. *)
Definition lerp (t a b : R) : R := (1 - t) * a + t * b.
Definition trilinear (v : nat -> nat -> nat -> R) (f1 f2 f3 : R) : R :=
  lerp f1 (lerp f2 (lerp f3 (v 0 0 0)%nat (v 0 0 1)%nat) (lerp f3 (v 0 1 0)%nat (v 0 1 1)%nat))
          (lerp f2 (lerp f3 (v 1 0 0)%nat (v 1 0 1)%nat) (lerp f3 (v 1 1 0)%nat (v 1 1 1)%nat)).
Theorem C42_linear_kernel_is_trilinear vd arr n1 n2 n3 o1 f1 o2 f2 start delta n (o3 : nat -> nat) (f3 : nat -> R) :
  api_array vd arr -> a_shape arr = [n1; n2; n3] ->
  0 <= f1 < 1 -> 0 <= f2 < 1 -> (o1 + 1 < n1)%nat -> (o2 + 1 < n2)%nat ->
  (forall s, (s < n)%nat -> start + INR s * delta = INR (o3 s) + f3 s /\ 0 <= f3 s < 1 /\ (o3 s + 1 < n3)%nat) ->
  exists out, interpolate linear vd arr (cleared n vd) (INR o1 + f1) (INR o2 + f2) start delta n = Some out /\ length out = n /\
    forall s, (s < n)%nat -> out !! s = Some (vec vd (fun c =>
      trilinear (fun a b d => comp vd arr [o1 + a; o2 + b; o3 s + d]%nat c) f1 f2 (f3 s))).
Proof.
  intros Ha Hsh Hf1 Hf2 Hr1 Hr2 Hs.
  destruct (C42_interpolation_is_weighted_sum linear vd arr n1 n2 n3 o1 f1 o2 f2 [1 - f1; f1] [1 - f2; f2] start delta n o3 f3
              (fun s => [1 - f3 s; f3 s])) as (out & -> & Hl & Hv); auto.
  1,2: unfold linear; simpl; by rewrite frac_ok_true.
  1,2: unfold has_room; simpl; lia.
  { intros s Hsn. destruct (Hs s Hsn) as (H1 & H2 & H3). split_and!; try done; try lra; [|unfold has_room; simpl; lia..].
    unfold linear; simpl; by rewrite frac_ok_true. }
  exists out. split_and!; [done..|]. intros s Hsn. rewrite Hv by done. f_equal. apply vec_ext. intros c Hc.
  unfold interp_sum, sum, trilinear, lerp. simpl. rewrite !Nat.sub_0_r. ring.
Qed.
Print Assumptions C42_linear_kernel_is_trilinear.

(** Refuted near the lower boundary: with the cubic kernel a node in the first row of an outer axis has no room for its
    stencil; nothing is visited and zero is returned whatever the array holds, without any diagnostic. *)
Theorem C42_keys_at_lower_boundary_refuted :
  (forall vd arr o2 f2 start delta n, 0 <= f2 < 1 ->
     interpolate keys vd arr (cleared n vd) (INR 0) (INR o2 + f2) start delta n = Some (cleared n vd)) /\
  exists arr : ndarr R, api_array 1 arr /\ a_shape arr = [4; 4; 4]%nat /\ aread 1 arr [0; 1; 1]%nat = Some [7] /\
    interpolate keys 1 arr (cleared 1 1) (INR 0) (INR 1) (INR 1) 1 1 = Some [[0]].
Proof.
  assert (forall vd arr o2 f2 start delta n, 0 <= f2 < 1 ->
     interpolate keys vd arr (cleared n vd) (INR 0) (INR o2 + f2) start delta n = Some (cleared n vd)) as H.
  { intros. unfold interpolate. rewrite <- (Rplus_0_r (INR 0)), (modf_spec 0 0) by lra. rewrite modf_spec by done. cbn [mbind option_bind].
    rewrite !keys_weights by lra. done. }
  split; [done|].
  exists (anew 1 7 [4; 4; 4]%nat). split_and!.
  - by apply api_new.
  - done.
  - reflexivity.
  - rewrite <- (Rplus_0_r (INR 1)) at 1. rewrite (H 1%nat _ 1%nat 0) by lra. done.
Qed.
Print Assumptions C42_keys_at_lower_boundary_refuted.

(** Non-vacuity: a cubic sampling of a 5x5x6 array. *)
Example C42_nonvacuous : exists (arr : ndarr R) out,
  api_array 2 arr /\ a_shape arr = [5; 5; 6]%nat /\ has_room keys 5 2 /\
  interpolate keys 2 arr (cleared 2 2) (INR 2) (INR 2) (INR 1) (INR 2) 2 = Some out /\
  out !! 1%nat = aread 2 arr [2; 2; 3]%nat.
Proof.
  assert (api_array 2 (anew 2 7 [5; 5; 6]%nat)) as Ha by (by apply api_new).
  destruct (C42_nodes_return_stored_elements keys 2 _ 5 5 6 2 2 1 2 2 (or_intror eq_refl) Ha eq_refl) as (out & H1 & _ & H2);
    [unfold has_room; simpl; lia..|intros s Hs; unfold has_room; simpl; lia|].
  exists (anew 2 7 [5; 5; 6]%nat), out. split_and!; try done; [unfold has_room; simpl; lia|]. apply (H2 1%nat). lia.
Qed.
