(** Proofs for C61. *)
From stdpp Require Import base sets list list_numbers numbers option.
From Coq Require Import Reals Lra Lia ZArith.
From Verif Require Import LoopsModel LoopsProofs NDArrayModel NDArrayProofs NDArrayOps NDArrayOps3 NDArrayProps IndexSpec KernelModel KernelProps InterpModel InterpProps BBoxModel
  ChunkMetaModel ChunkMetaProps SignalModel SignalProps FillModel.
Local Open Scope R_scope.

(** The outputs of a chunk along one axis are those whose position is between its start and its end, both included. *)
Lemma out_range_spec f0 st n cs ce : 0 < st -> (2 <= n)%nat -> (cs <= ce)%N -> f0 < INR (N.to_nat ce) -> INR (N.to_nat cs) < f0 + INR (n - 1) * st ->
  exists a b, out_range f0 st n cs ce = Some (a, b) /\ (a < n)%nat /\ (1 <= b)%nat /\ (a <= b <= n)%nat /\
    forall o, (o < n)%nat -> (a <= o < b)%nat <-> INR (N.to_nat cs) <= f0 + INR o * st <= INR (N.to_nat ce).
Proof.
  intros Hst Hn Hce Hf0 Hf1. unfold out_range, ceil_nonneg, floor_nonneg.
  set (x := (INR (N.to_nat cs) - f0) / st). set (y := (INR (N.to_nat ce) - f0) / st).
  assert (INR (N.to_nat cs) <= INR (N.to_nat ce)) as Hle by (apply le_INR; lia).
  assert (INR (N.to_nat cs) = f0 + x * st) as Ex by (unfold x; field; lra). assert (INR (N.to_nat ce) = f0 + y * st) as Ey by (unfold y; field; lra).
  assert (0 < y) as Hy. { unfold y. apply Rmult_lt_0_compat; [lra|]. by apply Rinv_0_lt_compat. }
  assert (x <= y) as Hxy. { apply Rmult_le_reg_r with st; lra. }
  assert (x < INR (n - 1)) as Hx. { apply Rmult_lt_reg_r with st; lra. }
  rewrite Ex, Ey. clearbody x y. pose proof (pos_INR n) as Hn0. pose proof (pos_INR (n - 1)) as Hn1. rewrite minus_INR in * by lia. change (INR 1) with 1 in *.
  destruct (Rle_dec 0 (Rmax x 0)) as [_|Hno]; [|destruct Hno; apply Rmax_r]. cbn [mbind option_bind].
  assert (2 <= INR n) as Hn2. { change 2 with (INR 2). by apply le_INR. }
  destruct (Rle_dec 0 (Rmin (y + 1) (INR n))) as [_|Hno]; [|destruct Hno; apply Rmin_glb; lra]. cbn [mbind option_bind].
  pose proof (ceiling_spec (Rmax x 0)) as Hc. pose proof (base_Int_part (Rmin (y + 1) (INR n))) as [Hb1 Hb2].
  set (a := ceiling (Rmax x 0)) in *. set (b := Int_part (Rmin (y + 1) (INR n))) in *.
  assert (x <= Rmax x 0) as M1 by apply Rmax_l. assert (0 <= Rmax x 0) as M2 by apply Rmax_r.
  assert (Rmin (y + 1) (INR n) <= y + 1) as M3 by apply Rmin_l. assert (Rmin (y + 1) (INR n) <= INR n) as M4 by apply Rmin_r.
  assert (Rmax x 0 < INR n - 1) as M5 by (apply Rmax_lub_lt; lra).
  assert (1 <= Rmin (y + 1) (INR n)) as M6 by (apply Rmin_glb; lra).
  assert (0 <= a)%Z as Ha0. { apply le_IZR. lra. }
  assert (a < Z.of_nat n)%Z as Han. { apply lt_IZR. rewrite <- INR_IZR_INZ. lra. }
  assert (0 < b)%Z as Hb0. { apply lt_IZR. lra. }
  assert (b <= Z.of_nat n)%Z as Hbn. { apply le_IZR. rewrite <- INR_IZR_INZ. lra. }
  assert (forall o, (a <= Z.of_nat o)%Z <-> x <= INR o) as Hao.
  { intros o. split; intros H.
    - apply IZR_le in H. rewrite <- INR_IZR_INZ in H. lra.
    - assert (Rmax x 0 <= INR o) by (apply Rmax_lub; [done|apply pos_INR]). assert (a < Z.of_nat o + 1)%Z; [|lia]. apply lt_IZR. rewrite plus_IZR, <- INR_IZR_INZ. lra. }
  assert (forall o, (o < n)%nat -> (Z.of_nat o < b)%Z <-> INR o <= y) as Hbo.
  { intros o Ho. split; intros H.
    - assert (Z.of_nat o + 1 <= b)%Z as H' by lia. apply IZR_le in H'. rewrite plus_IZR, <- INR_IZR_INZ in H'. lra.
    - assert (INR o + 1 <= INR n) as Ho'. { rewrite <- S_INR. apply le_INR. lia. }
      assert (INR o + 1 <= Rmin (y + 1) (INR n)) by (apply Rmin_glb; lra).
      apply lt_IZR. rewrite <- INR_IZR_INZ. lra. }
  exists (Z.to_nat a), (Z.to_nat b). split; [done|]. split; [lia|]. split; [lia|]. split.
  - split; [|lia]. (* the smallest output index not before x is at most one behind y *)
    destruct (decide (a <= b)%Z) as [|Hab]; [lia|]. exfalso. assert (Z.of_nat (Z.to_nat b) < a)%Z as H1 by lia.
    assert (~ x <= INR (Z.to_nat b)) as H2 by (rewrite <- Hao; lia). apply H2. rewrite INR_IZR_INZ, Z2Nat.id by lia. 
    assert (Rmin (y + 1) (INR n) = y + 1 \/ Rmin (y + 1) (INR n) = INR n) as HE by (unfold Rmin; destruct (Rle_dec (y + 1) (INR n)); auto). destruct HE as [HE|HE]; rewrite HE in *; lra.
  - intros o Ho. split.
    + intros [H1 H2]. assert (x <= INR o) as H3 by (apply Hao; lia). assert (INR o <= y) as H4 by (apply Hbo; lia).
      apply (Rmult_le_compat_r st) in H3; [|lra]. apply (Rmult_le_compat_r st) in H4; lra.
    + intros [H1 H2]. assert (x <= INR o) as H3 by (apply Rmult_le_reg_r with st; lra). assert (INR o <= y) as H4 by (apply Rmult_le_reg_r with st; lra).
      apply Hao in H3. apply (Hbo o Ho) in H4. lia.
Qed.

(** Interpolation inside a chunk and on its far faces, when there is more overlap than the kernel needs. *)
Lemma chunk_serves_closed G K g ty path id s1 s2 s3 n1 n2 n3 ov data r z t ts n ir iz :
  let m := mk_meta ty path id [s1; s2; s3] [n1; n2; n3] ov in
  K = linear \/ K = keys -> fits [s1; s2; s3] [n1; n2; n3] ov -> (ov < 2 ^ 64)%N -> g_data G m = Some data -> stores (needed K) g [s1; s2; s3] [n1; n2; n3] ov data ->
  cell r ir -> cell z iz -> (N.to_nat s1 <= ir <= N.to_nat (s1 + n1))%nat -> (N.to_nat s2 <= iz <= N.to_nat (s2 + n2))%nat ->
  0 < ts -> INR (N.to_nat s3) <= t -> (k_support K < N.to_nat ov)%nat ->
  (forall s, (s < n)%nat -> t + INR s * ts <= INR (N.to_nat (s3 + n3))) ->
  chunk_samples G K m r z t ts n = Some (pairs ((fun s => grid_field K g r z (t + INR s * ts)) <$> seq 0 n)).
Proof.
  intros m HK Hfit Hovw Hdata (Hapi & Hsh & s1' & s2' & s3' & [= <- <- <-] & Hval) Hr Hz Hr1 Hz1 Hts Ht Hov Hs.
  unfold chunk_samples. rewrite Hdata. cbn [mbind option_bind].
  assert (exists it, cell t it) as [it Hit] by (apply cell_exists; pose proof (pos_INR (N.to_nat s3)); lra).
  assert (N.to_nat s3 <= it)%nat as Hit3.
  { destruct (decide (N.to_nat s3 <= it)%nat) as [|Hx]; [done|]. assert (S it <= N.to_nat s3)%nat as Hx' by lia. apply le_INR in Hx'. rewrite S_INR in Hx'. destruct Hit; lra. }
  assert (1 <= k_support K)%nat as Hsup by (destruct HK as [-> | ->]; simpl; lia).
  set (lr := r - INR (N.to_nat s1) + INR (N.to_nat ov)). set (lz := z - INR (N.to_nat s2) + INR (N.to_nat ov)).
  assert (exists lt, local_coord m [r; z; t] = Some [lr; lz; lt] /\ (n <> 0%nat -> lt = t - INR (N.to_nat s3) + INR (N.to_nat ov))) as (lt & Hlc & Hlt).
  { destruct (decide (n = 0%nat)) as [->|Hn].
    - assert (local_coord (mk_meta ty path id [s1; s2] [n1; n2] ov) [r; z] = Some [lr; lz]) as H2.
      { destruct Hfit as [F1 F2]. cbn [zip_with] in F1. rewrite !list.Forall_cons in F1, F2. destruct F1 as (F1 & F1' & _), F2 as (F2 & F2' & _).
        rewrite (C46_local_coordinate_exact ty path id [s1; s2] [n1; n2] ov [r; z] [N.of_nat ir; N.of_nat iz] [r - INR ir; z - INR iz]); try done.
        - split; cbn [zip_with]; repeat constructor; done.
        - split; cbn [zip_with]; repeat constructor; lia.
        - unfold cell in *. repeat (apply Forall_cons_2; [lra|]). constructor.
        - cbn [zip_with]. rewrite !Nat2N.id. repeat f_equal; lra. }
      assert (modf t = Some (it, t - INR it)) as Hmt. { replace t with (INR it + (t - INR it)) at 1 by lra. apply modf_spec. destruct Hit; lra. }
      unfold local_coord, m in *. cbn [cm_off mk_meta] in *. rewrite !list.fmap_cons, list.fmap_nil in H2. rewrite !list.fmap_cons, list.fmap_nil. cbn [zip_with mapM fst snd] in *.
      destruct (modf r) as [[i f]|]; [|done]. cbn [mbind option_bind] in *. destruct (modf z) as [[j e]|]; [|done]. cbn [mbind option_bind] in *. rewrite Hmt. cbn [mbind option_bind].
      injection H2 as <- <-. eexists. split; [reflexivity|intros Hx; by destruct Hx].
    - exists (t - INR (N.to_nat s3) + INR (N.to_nat ov)). split; [|done].
      assert (it <= N.to_nat (s3 + n3))%nat as Hite. { apply INR_le. destruct Hit. specialize (Hs 0%nat ltac:(lia)). simpl in Hs. lra. }
      unfold m. rewrite (C46_local_coordinate_exact ty path id [s1; s2; s3] [n1; n2; n3] ov [r; z; t] [N.of_nat ir; N.of_nat iz; N.of_nat it] [r - INR ir; z - INR iz; t - INR it]); try done.
      + split; cbn [zip_with]; repeat constructor; lia.
      + unfold cell in *. repeat (apply Forall_cons_2; [lra|]). constructor.
      + cbn [zip_with]. rewrite !Nat2N.id. repeat f_equal; lra. }
  rewrite Hlc. cbn [mbind option_bind].
  assert (cell lr (ir + N.to_nat ov - N.to_nat s1)) as Clr by (apply cell_shift; [done|lia]).
  assert (cell lz (iz + N.to_nat ov - N.to_nat s2)) as Clz by (apply cell_shift; [done|lia]).
  set (o1 := (ir + N.to_nat ov - N.to_nat s1)%nat) in *. set (o2 := (iz + N.to_nat ov - N.to_nat s2)%nat) in *.
  destruct (kern_total K (lr - INR o1)) as (w1 & Hw1 & _ & _); [done|unfold cell in *; lra|].
  destruct (kern_total K (lz - INR o2)) as (w2 & Hw2 & _ & _); [done|unfold cell in *; lra|].
  set (gt := fun s => t + INR s * ts).
  assert (forall s, (s < n)%nat -> exists i, cell (gt s) i /\ (N.to_nat s3 <= i <= N.to_nat (s3 + n3))%nat) as Hcells.
  { intros s Hsn. assert (0 <= INR s * ts) by (apply Rmult_le_pos; [apply pos_INR|lra]). destruct (cell_exists (gt s)) as [i Hi].
    { unfold gt. pose proof (pos_INR (N.to_nat s3)). lra. }
    exists i. split; [done|]. assert (N.to_nat s3 < S i)%nat. { apply INR_lt. rewrite S_INR. destruct Hi. unfold gt in *. lra. }
    destruct Hi as [Hi1 Hi2]. pose proof (Hs s Hsn) as Hx; fold (gt s) in Hx. assert (i <= N.to_nat (s3 + n3))%nat by (apply INR_le; lra). lia. }
  set (o3 := fun s => (Z.to_nat (Int_part (gt s)) + N.to_nat ov - N.to_nat s3)%nat).
  set (f3 := fun s => frac_part (gt s)).
  destruct (C42_interpolation_is_weighted_sum K 2 data (N.to_nat n1 + 2 * N.to_nat ov) (N.to_nat n2 + 2 * N.to_nat ov) (N.to_nat n3 + 2 * N.to_nat ov)
     o1 (lr - INR o1) o2 (lz - INR o2) w1 w2 lt ts n o3 f3 (fun s => default [] (k_kern K (f3 s)))) as (out & Hout & Hlen & Hv); try done.
  - unfold cell in *; lra.
  - unfold cell in *; lra.
  - unfold has_room, o1; lia.
  - unfold has_room, o2; lia.
  - intros s Hsn. destruct (Hcells s Hsn) as (i & Hi & Hi1). unfold o3, f3. rewrite (Int_part_cell _ _ Hi), (frac_cell _ _ Hi), Nat2Z.id.
    split_and!.
    + rewrite Hlt by lia. rewrite minus_INR, plus_INR by lia. unfold gt. lra.
    + destruct Hi; lra.
    + destruct Hi; lra.
    + destruct (kern_total K (gt s - INR i)) as (w3 & -> & _); [done|destruct Hi; lra|done].
    + unfold has_room. lia.
  - replace (INR o1 + (lr - INR o1)) with lr in Hout by lra. replace (INR o2 + (lz - INR o2)) with lz in Hout by lra.
    unfold cleared in Hout. rewrite Hout. f_equal.
    apply list_eq_same_length with n; [unfold pairs; by rewrite !fmap_length, seq_length|done|].
    intros s a b Hsn Ha Hb. rewrite Hv in Ha by done. injection Ha as <-.
    unfold pairs in Hb. rewrite !list_lookup_fmap, lookup_seq_lt in Hb by done. cbn [fmap option_fmap option_map] in Hb. apply (inj Some) in Hb. subst b.
    rewrite Nat.add_0_l. fold (gt s). destruct (Hcells s Hsn) as (i & Hi & Hi1).
    assert (forall c, (c < 2)%nat -> interp_sum K 2 data w1 w2 (default [] (k_kern K (f3 s))) o1 o2 (o3 s) c =
      sum (2 * k_support K) (fun j1 => sum (2 * k_support K) (fun j2 => sum (2 * k_support K) (fun j3 =>
    kernel_weight K r j1 * kernel_weight K z j2 * kernel_weight K (gt s) j3 *
      g (Int_part r - (Z.of_nat (k_support K) - 1) + Z.of_nat j1)%Z (Int_part z - (Z.of_nat (k_support K) - 1) + Z.of_nat j2)%Z
         (Int_part (gt s) - (Z.of_nat (k_support K) - 1) + Z.of_nat j3)%Z c)))) as Heq.
    { intros c Hc. unfold interp_sum. apply sum_ext. intros j1 Hj1. apply sum_ext. intros j2 Hj2. apply sum_ext. intros j3 Hj3.
      assert (kernel_weight K r j1 = nth j1 w1 0) as ->.
      { unfold kernel_weight. rewrite (frac_cell _ _ Hr). replace (r - INR ir) with (lr - INR o1); [by rewrite Hw1|].
        unfold lr, o1. rewrite minus_INR, plus_INR by lia. lra. }
      assert (kernel_weight K z j2 = nth j2 w2 0) as ->.
      { unfold kernel_weight. rewrite (frac_cell _ _ Hz). replace (z - INR iz) with (lz - INR o2); [by rewrite Hw2|].
        unfold lz, o2. rewrite minus_INR, plus_INR by lia. lra. }
      f_equal. unfold comp. rewrite Hval.
      2:{ rewrite Hsh. apply in_shape_forall2. unfold o3. rewrite (Int_part_cell _ _ Hi), Nat2Z.id. repeat constructor; unfold o1, o2; lia. }
      2:{ unfold needed; cbv zeta; unfold o1, o2, o3; rewrite ?(Int_part_cell _ _ Hi), ?Nat2Z.id; lia. }
      cbn [default]. unfold Datatypes.id. rewrite (nth_lookup_Some _ _ 0 (g (Int_part r - (Z.of_nat (k_support K) - 1) + Z.of_nat j1)%Z (Int_part z - (Z.of_nat (k_support K) - 1) + Z.of_nat j2)%Z
         (Int_part (gt s) - (Z.of_nat (k_support K) - 1) + Z.of_nat j3)%Z c)); [done|].
      rewrite list_lookup_fmap. change [0; 1]%nat with (seq 0 2). rewrite lookup_seq_lt by done. cbn [fmap option_fmap option_map]. f_equal.
      rewrite (Int_part_cell _ _ Hr), (Int_part_cell _ _ Hz). unfold o3. rewrite (Int_part_cell _ _ Hi), Nat2Z.id. f_equal; [unfold o1, o2; lia..]. }
    unfold vec. cbn [seq fmap list_fmap]. rewrite !Heq by lia. done.
Qed.

(** A column. *)
Lemma column_wf buf : Forall (fun v => length v = 2%nat) buf -> wf_owned 2 (column buf).
Proof.
  intros Hb. unfold wf_owned, column. cbn [a_shape a_strides a_off a_data a_owns]. split; [done|]. split; [done|]. split; [done|]. split; [|done].
  unfold compute_volume, number_elements. cbn [fold_left]. induction Hb as [|v buf Hv _ IH]; [done|]. cbn [concat length]. rewrite app_length, IH, Hv. lia.
Qed.
Lemma column_read buf k v : Forall (fun v => length v = 2%nat) buf -> buf !! k = Some v -> aread 2 (column buf) [k] = Some v.
Proof.
  intros Hb Hk. unfold aread, column. cbn [a_shape a_strides a_off a_data]. pose proof (lookup_lt_Some _ _ _ Hk) as Hl. cbn [has_index]. rewrite (proj2 (Nat.ltb_lt _ _) Hl). cbn [andb].
  assert (flat_ind (compute_strides 2 [length buf]) 0 [k] = k * 2)%nat as -> by done.
  revert k Hk Hl. induction Hb as [|w buf Hw Hb IH]; intros k Hk Hl; [done|]. destruct w as [|a [|b [|? ?]]]; try done. destruct k as [|k].
  - injection Hk as <-. done.
  - cbn [lookup list_lookup] in Hk. specialize (IH k Hk (lookup_lt_Some _ _ _ Hk)). unfold block in *. cbn [concat app length Nat.mul Nat.add drop Nat.leb] in *. exact IH.
Qed.
Lemma pairs_wf l : Forall (fun v => length v = 2%nat) (pairs l).
Proof. unfold pairs. apply list.Forall_forall. intros v (p & -> & _)%elem_of_list_fmap. done. Qed.
