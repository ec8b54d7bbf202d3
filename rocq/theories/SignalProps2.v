(** Examples and refutations for C43 and C44. *)
From stdpp Require Import base sets list list_numbers numbers option.
From Coq Require Import Reals Lra Lia ZArith.
From Verif Require Import NDArrayModel NDArrayProofs NDArrayOps NDArrayOps3 NDArrayProps IndexSpec KernelModel KernelProps InterpModel InterpProps BBoxModel
  ChunkMetaModel ChunkMetaProps SignalModel SignalProps.
Local Open Scope R_scope.

Lemma anew_read {A} vd (j : A) sh y : sh <> [] -> in_shape sh y -> aread vd (anew vd j sh) y = Some (replicate vd j).
Proof.
  intros Hne Hy. destruct (aread_Some vd (anew vd j sh) y) as (v & Hv & Hl); [by apply wf_owned_wf, anew_wf|done|]. rewrite Hv. f_equal.
  rewrite aread_eq in Hv by done. apply block_lookup in Hv as [_ Hlk].
  apply list_eq_same_length with vd; [by rewrite replicate_length|done|]. intros i a b Hi Ha Hb.
  rewrite lookup_replicate_2 in Hb by done. injection Hb as <-. rewrite Hlk in Ha by done. cbn [a_data anew] in Ha.
  apply lookup_replicate_1 in Ha as [-> _]. done.
Qed.

(** A field that is one at t = 4 and t = 5 and zero elsewhere. *)
Definition late (j1 j2 j3 : Z) (c : nat) : R := if ((4 <=? j3) && (j3 <? 6))%Z then 1 else 0.
Lemma late_data : exists data, stores (fun _ _ _ => True) late [0; 0; 2]%N [4; 4; 6]%N 2 data.
Proof.
  assert (wf_owned 2 (anew 2 0 [8; 8; 10]%nat)) as Hwf by (by apply anew_wf).
  destruct (afill_spec 2 (anew 2 0 [8; 8; 10]%nat) [0; 0; 4]%nat [8; 8; 6]%nat 1) as (a & Ha & Hwf' & Hsh & Hr); [done|repeat constructor; lia|repeat constructor; lia|].
  exists a. split_and!.
  - eapply (api_fill 2 (anew 2 0 [8; 8; 10]%nat)); [by apply api_new|..|done]; repeat constructor; lia.
  - done.
  - exists 0%N, 0%N, 2%N. split; [done|]. intros i1 i2 i3 ? ? ?. subst j1 j2 j3. rewrite Hsh. intros Hi _. rewrite Hr by done.
    cbn [a_shape anew] in Hi. apply in_shape_forall2 in Hi. apply Forall2_cons_1 in Hi as [H1 Hi]. apply Forall2_cons_1 in Hi as [H2 Hi]. apply Forall2_cons_1 in Hi as [H3 _].
    destruct (decide _) as [Hin|Hin].
    + apply in_box_forall2 in Hin as [Hlo Hhi]. do 2 apply Forall2_cons_1 in Hhi as [_ Hhi]. apply Forall2_cons_1 in Hhi as [Hhi _]. do 2 apply Forall2_cons_1 in Hlo as [_ Hlo]. apply Forall2_cons_1 in Hlo as [Hlo _].
      unfold late. destruct (Z.leb_spec 4 (Z.of_nat i3 + Z.of_N 2 - Z.of_N 2)), (Z.ltb_spec (Z.of_nat i3 + Z.of_N 2 - Z.of_N 2) 6); try lia; done.
    + rewrite (anew_read 2 0 [8; 8; 10]%nat [i1; i2; i3]); [|discriminate|apply in_shape_forall2; repeat (apply Forall2_cons_2; [assumption|]); constructor].
      unfold late. destruct (Z.leb_spec 4 (Z.of_nat i3 + Z.of_N 2 - Z.of_N 2)), (Z.ltb_spec (Z.of_nat i3 + Z.of_N 2 - Z.of_N 2) 6); try reflexivity. destruct Hin. apply in_box_forall2. split; (repeat (apply Forall2_cons_2; [lia|])); constructor.
Qed.

Definition null_meta : chunk_meta := mk_meta all_null [] 0 [0; 0; 0]%N [4; 4; 2]%N 2.
Definition late_meta : chunk_meta := mk_meta specified [] 1 [0; 0; 2]%N [4; 4; 6]%N 2.
Definition tail_meta : chunk_meta := mk_meta all_null [] 2 [0; 0; 8]%N [4; 4; 4]%N 2.
(** Three chunks: an all-null one for t in [0, 2), a specified one for t in [2, 8) and another all-null one for t in [8, 12). *)
Definition late_green (data : ndarr R) : green :=
  Green (0, 0, 0) (1, 1, 1)
    (fun ind => match ind with
                | [i1; i2; i3] => if ((i1 <? 4) && (i2 <? 4))%N then if (i3 <? 2)%N then Some null_meta else if (i3 <? 8)%N then Some late_meta else if (i3 <? 12)%N then Some tail_meta else None else None
                | _ => None
                end)
    (fun _ => Some data).

Lemma late_library data : stores (fun _ _ _ => True) late [0; 0; 2]%N [4; 4; 6]%N 2 data -> library (late_green data) linear (fun _ _ _ => True) late.
Proof.
  intros Hst i1 i2 i3 m. cbn [g_chunk late_green]. destruct (N.ltb_spec i1 4), (N.ltb_spec i2 4); try done. cbn [andb].
  destruct (N.ltb_spec i3 2); [|destruct (N.ltb_spec i3 8); [|destruct (N.ltb_spec i3 12); [|done]]]; intros [= <-].
  - exists all_null, [], 0%N, 0%N, 0%N, 0%N, 4%N, 4%N, 2%N, 2%N. split; [done|]. split; [split; repeat constructor|].
    split; [simpl; lia|]. split; [done|]. split_and!; try lia. rewrite decide_False by done. intros j1 j2 j3 c ? ? Hj _. unfold late. destruct (Z.leb_spec 4 j3); [lia|done].
  - exists specified, [], 1%N, 0%N, 0%N, 2%N, 4%N, 4%N, 6%N, 2%N. split; [done|]. split; [split; repeat constructor|].
    split; [simpl; lia|]. split; [done|]. split_and!; try lia. rewrite decide_True by done. exists data. done.
  - exists all_null, [], 2%N, 0%N, 0%N, 8%N, 4%N, 4%N, 4%N, 2%N. split; [done|]. split; [split; repeat constructor|].
    split; [simpl; lia|]. split; [done|]. split_and!; try lia. rewrite decide_False by done. intros j1 j2 j3 c ? ? Hj _. unfold late.
    destruct (Z.leb_spec 4 j3), (Z.ltb_spec j3 6); try done; lia.
Qed.

Lemma late_off data t : off_end (late_green data) linear t.
Proof.
  intros ind m e Hm _. left. cbn [g_chunk late_green] in Hm. repeat (case_match; try discriminate Hm); injection Hm as <-; cbn; lia.
Qed.
Lemma cell_INR i : cell (INR i) i. Proof. unfold cell. lra. Qed.
Lemma late_found data i1 i2 i3 : (i1 < 4)%nat -> (i2 < 4)%nat -> (i3 < 12)%nat ->
  found (late_green data) (INR i1) (INR i2) (INR i3) (Some (if (i3 <? 2)%nat then null_meta else if (i3 <? 8)%nat then late_meta else tail_meta)).
Proof.
  intros H1 H2 H3. exists i1, i2, i3. split_and!; try apply cell_INR. cbn [g_chunk late_green].
  rewrite (proj2 (N.ltb_lt (N.of_nat i1) 4)), (proj2 (N.ltb_lt (N.of_nat i2) 4)) by lia. cbn [andb].
  destruct (Nat.ltb_spec i3 2).
  - rewrite (proj2 (N.ltb_lt _ _)) by lia. done.
  - rewrite (proj2 (N.ltb_ge _ 2)) by lia. destruct (Nat.ltb_spec i3 8).
    + rewrite (proj2 (N.ltb_lt _ 8)) by lia. done.
    + rewrite (proj2 (N.ltb_ge _ 8)) by lia. rewrite (proj2 (N.ltb_lt _ 12)) by lia. done.
Qed.

(** At a node the interpolated field is the sample. *)
Lemma grid_node g i1 i2 i3 : grid_field linear g (INR i1) (INR i2) (INR i3) =
  (g (Z.of_nat i1) (Z.of_nat i2) (Z.of_nat i3) 0%nat, g (Z.of_nat i1) (Z.of_nat i2) (Z.of_nat i3) 1%nat).
Proof.
  unfold grid_field. rewrite !(Int_part_cell _ _ (cell_INR _)).
  assert (forall i j, kernel_weight linear (INR i) j = nth j [1; 0] 0) as Hw.
  { intros i j. unfold kernel_weight. rewrite (frac_cell _ _ (cell_INR i)), Rminus_diag_eq by done. unfold linear; cbn [k_kern].
    rewrite frac_ok_true by lra. cbn [default]. unfold Datatypes.id. destruct j as [|[|]]; simpl; lra. }
  unfold sum. cbn [k_support linear Nat.mul Nat.add seq fmap list_fmap Rsum foldr]. rewrite !Hw. cbn [nth].
  change (Z.of_nat 1 - 1)%Z with 0%Z. change (Z.of_nat 0) with 0%Z. rewrite !Z.sub_0_r, !Z.add_0_r. f_equal; lra.
Qed.

(** A unit charge moving along the axis from z = 1 to z = 2 in one unit of time. *)
Definition probe : segment := Segment (0, 0, 1) (0, 0, 2) 0 1 1.
Lemma probe_along p : along probe 1 p = (0, 0, INR (1 + p)).
Proof. unfold along, probe; cbn [s_start s_end fst snd]. rewrite plus_INR. simpl (INR 1). f_equal; [f_equal|]; field. Qed.
Lemma probe_time p : time_at probe 1 p = INR p.
Proof. unfold time_at, probe; cbn [s_t0 s_t1]. simpl (INR 1). field. Qed.
Lemma probe_radius p : radius (along probe 1 p) = 0.
Proof. rewrite probe_along. unfold radius. cbn [fst snd]. rewrite !Rmult_0_l, Rplus_0_r. apply sqrt_0. Qed.
Lemma probe_current : current probe = (0, 0, 1).
Proof. unfold current, probe; cbn [s_start s_end s_t0 s_t1 s_charge fst snd]. f_equal; [f_equal|]; field. Qed.
Lemma probe_r data p : ind_r (late_green data) probe 1 p = INR 0.
Proof. unfold ind_r. rewrite probe_radius. cbn [late_green g_start g_interval fst snd INR]. field. Qed.
Lemma probe_z data p : ind_z (late_green data) probe 1 p = INR (1 + p).
Proof. unfold ind_z. rewrite probe_along. cbn [late_green g_start g_interval fst snd]. field. Qed.
Lemma probe_t data (j p : nat) : (p <= j)%nat -> ind_t (late_green data) (0 + INR j * 1 - time_at probe 1 p) = INR (j - p).
Proof. intros Hp. unfold ind_t. rewrite probe_time, minus_INR by done. cbn [late_green g_start g_interval fst snd]. field. Qed.

Lemma null_step G K ignore fr fz ft ts n src w fuel pos signal m e c :
  (0 < n)%nat -> ts <> 0 -> found G fr fz ft (Some m) -> cm_type m <> specified -> (k_support K <= N.to_nat (cm_overlap m))%nat ->
  cm_end m !! 2%nat = Some e -> cell ((INR (N.to_nat e) - ft) / ts) c -> ft + INR (Nat.min (c + 1) n - 1) * ts <= INR (N.to_nat e) ->
  accumulate_loop G K ignore fr fz ft ts n src w (S fuel) 0 pos signal = accumulate_loop G K ignore fr fz ft ts n src w fuel (Nat.min (c + 1) n) pos signal.
Proof.
  intros Hn Hts Hfd Hty Hov He Hc Hend. destruct Hfd as (ir & iz & it & Hr & Hz & Ht & Hm).
  cbn [accumulate_loop]. rewrite (proj2 (Nat.leb_gt n 0)) by done. simpl (INR 0). replace (ft + 0 * ts) with ft by lra.
  rewrite (to_size_cell _ _ Hr), (to_size_cell _ _ Hz), (to_size_cell _ _ Ht). cbn [mbind option_bind]. rewrite Hm.
  rewrite (proj2 (Nat.ltb_ge _ _)) by done. rewrite He. cbn [mbind option_bind]. destruct (Req_EM_T ts 0); [done|].
  rewrite (to_size_cell _ _ Hc). cbn [mbind option_bind]. rewrite Nat.sub_0_r. destruct (Rle_dec _ _); [|done].
  rewrite (proj2 (N.eqb_neq _ _)) by done. cbn [mbind option_bind]. done.
Qed.

(** What the code does for the probe: the samples after the null chunk arrive at the start of the output. *)
Lemma late_accumulate data p first n w signal :
  stores (fun _ _ _ => True) late [0; 0; 2]%N [4; 4; 6]%N 2 data -> (p <= 1)%nat -> (3 <= n)%nat -> (n <= 6)%nat -> (first + n <= length signal)%nat ->
  accumulate_inner_product (late_green data) linear false (coord_cyl (along probe 1 p)) 0 1 n (field_cyl (current probe) (along probe 1 p)) first w signal
  = Some (plus_at signal (fun j => if ((first <=? j) && (j <? first + (n - 3)))%nat then late 0 0 (Z.of_nat (3 + (j - first))) 1 * w else 0)).
Proof.
  intros Hst Hp Hn Hn6 Hl. unfold accumulate_inner_product. rewrite coord_cyl_eq, field_cyl_eq, probe_radius, probe_along, probe_current. cbn [late_green g_start g_interval].
  destruct (Req_EM_T 1 0); [lra|]. cbn [fst snd]. fold (late_green data).
  replace ((0 - 0) / 1) with (INR 0) by (simpl; field). replace ((INR (1 + p) - 0) / 1) with (INR (1 + p)) by field. replace (1 / 1) with 1 by field.
  replace n with (S (n - 1)) at 2 by lia.
  rewrite (null_step _ _ _ _ _ _ _ _ _ _ _ _ _ null_meta 2%N 2); [|lia|lra|apply (late_found data 0 (1 + p) 0); lia|done|simpl; lia|done| |].
  2:{ replace ((INR (N.to_nat 2) - INR 0) / 1) with (INR 2) by (simpl; field). apply cell_INR. }
  2:{ rewrite Nat.min_l by lia. simpl. lra. }
  rewrite Nat.min_l by lia. simpl (2 + 1)%nat.
  rewrite (loop_spec _ _ _ (grid_field linear late) _ _ _ _ _ _ _ 3); [| lra | |lia|lia|lia].
  - f_equal. apply plus_at_ext. intros j Hj. destruct ((first <=? j) && (j <? first + (n - 3)))%nat; [|done].
    replace (INR 0 + INR (3 + (j - first)) * 1) with (INR (3 + (j - first))) by (simpl (INR 0); lra). rewrite grid_node. assert (radial (0, 0, 1) (0, 0, INR (1 + p)) = 0) as ->.
    { unfold radial. destruct (Rlt_dec _ _); [cbn [fst snd]|done]. rewrite !Rmult_0_l, Rplus_0_r. unfold Rdiv. apply Rmult_0_l. }
    unfold dot, late; cbn [fst snd]. lra.
  - intros j Hj. left. replace (INR 0 + INR j * 1) with (INR j) by (simpl (INR 0); lra).
    eapply (library_covered _ _ _ _ _ _ _ _ late_meta); [by left|by apply late_library|lra| |done|intros; split; [done|apply late_off]].
    pose proof (late_found data 0 (1 + p) j) as Hfd. rewrite (proj2 (Nat.ltb_ge j 2)), (proj2 (Nat.ltb_lt j 8)) in Hfd by lia. apply Hfd; lia.
Qed.

Lemma probe_sum data j : direct_sum (late_green data) (grid_field linear late) probe 1 (-1) (0 + INR j * 1) = (if ((4 <=? j) && (j <? 6))%nat then 1 / 2 else 0) + (if ((5 <=? j) && (j <? 7))%nat then 1 / 2 else 0).
Proof.
    unfold direct_sum. unfold sum. change (seq 0 (1 + 1)) with [0; 1]%nat. cbn [fmap list_fmap Rsum foldr].
      assert (forall p, (p <= 1)%nat -> (if Rle_dec (time_at probe 1 p) (0 + INR j * 1) then
          trapezoid (1 + 1) p * ((s_t1 probe - s_t0 probe) / INR 1) * -1 * -1 *
          dot (grid_field linear late (ind_r (late_green data) probe 1 p) (ind_z (late_green data) probe 1 p) (ind_t (late_green data) (0 + INR j * 1 - time_at probe 1 p)))
          (radial (current probe) (along probe 1 p), (current probe).2) else 0) = if ((4 + p <=? j) && (j <? 6 + p))%nat then 1 / 2 else 0) as Hp.
      { intros p Hp. destruct (Rle_dec (time_at probe 1 p) (0 + INR j * 1)) as [Hle|Hle]; rewrite probe_time in Hle.
        - assert (p <= j)%nat as Hpj by (apply INR_le; lra). rewrite probe_r, probe_z, probe_t, grid_node by done.
          unfold radial. rewrite probe_radius, probe_current. destruct (Rlt_dec 0 0); [lra|]. unfold dot. cbn [fst snd].
          unfold trapezoid. rewrite bool_decide_eq_true_2 by lia. unfold late. simpl (s_t1 probe). simpl (s_t0 probe). simpl (INR 1).
          destruct (Z.leb_spec 4 (Z.of_nat (j - p))), (Z.ltb_spec (Z.of_nat (j - p)) 6), (Nat.leb_spec (4 + p) j), (Nat.ltb_spec j (6 + p)); cbn [andb]; try lia; lra.
        - destruct (Nat.leb_spec (4 + p) j) as [Hx|]; [|done]. destruct Hle. assert (p <= j)%nat as Hpj by lia. apply le_INR in Hpj. lra. }
      rewrite (Hp 0%nat), (Hp 1%nat) by lia. simpl (4 + 0)%nat. simpl (4 + 1)%nat. simpl (6 + 0)%nat. simpl (6 + 1)%nat. lra.
Qed.

(** The samples 0..4 of the probe signal: one half at sample 4 is what should be there; the code puts it to sample 1. *)
Theorem C44_null_chunk_before_data_refuted : exists G g,
  library G linear (fun _ _ _ => True) g /\
  (forall p j, (p <= 1)%nat -> (j < 5)%nat -> time_at probe 1 p <= 0 + INR j * 1 ->
     exists m, found G (ind_r G probe 1 p) (ind_z G probe 1 p) (ind_t G (0 + INR j * 1 - time_at probe 1 p)) (Some m)) /\
  apply_accumulate 100 100 G linear false probe 0 1 5 (-1) [0; 0; 0; 0; 0] = Some [0; 1 / 2; 0; 0; 0] /\
  (fun j => direct_sum G (grid_field linear g) probe 1 (-1) (0 + INR j * 1)) <$> seq 0 5 = [0; 0; 0; 0; 1 / 2].
Proof.
  destruct late_data as [data Hst]. exists (late_green data), late. split; [by apply late_library|]. split.
  { intros p j Hp Hj Ht. rewrite probe_time in Ht. assert (p <= j)%nat by (apply INR_le; lra).
    rewrite probe_r, probe_z, probe_t by done. eexists. apply late_found; lia. }
  split.
  - unfold apply_accumulate. replace ((s_t1 probe - s_t0 probe) / 1) with (IZR 1) by (simpl; field).
    rewrite (ceiling_unique (IZR 1) 1) by lra. rewrite (to_size_cell _ 1) by apply (cell_INR 1). cbn [mbind option_bind Nat.eqb].
    destruct (Req_EM_T 1 0); [lra|]. cbv zeta. change (starts (1 + 1) 0 (1 + 1) 100) with [0%nat]. change (starts 5 0 5 100) with [0%nat].
    cbn [foldM]. change (Nat.min 100 (1 + 1 - 0)) with 2%nat. change (0 + 2)%nat with 2%nat. change (1 + 1)%nat with 2%nat.
    assert (fill_weights 0 2 2 2 = Some [1 / 2; 1 / 2]) as -> by reflexivity. cbn [mbind option_bind]. change (Nat.min (0 + 100) 5) with 5%nat.
    rewrite current_eq by (simpl; lra).
    assert (forall i, vplus (s_start probe) (vscale (INR (i + 0)) (vscale ((s_t1 probe - s_t0 probe) / INR 1) (vscale (/ (s_t1 probe - s_t0 probe)) (vplus (s_end probe) (vscale (-1) (s_start probe))))))
       = along probe 1 i) as Halong by (intros i; rewrite Nat.add_0_r; apply along_eq; [simpl; lra|lia]).
    assert (forall i, INR (i + 0) * ((s_t1 probe - s_t0 probe) / INR 1) + s_t0 probe = INR i) as Htime.
    { intros i. rewrite Nat.add_0_r, time_eq, probe_time by lia. done. }
    cbn [seq loop_break]. rewrite !Htime.
    assert (forall i, ceiling ((INR i - 0) / 1) = Z.of_nat i) as Hceil.
    { intros i. apply ceiling_unique. rewrite <- INR_IZR_INZ. lra. }
    rewrite !Hceil. change (to_int (Z.of_nat 0)) with (Some 0%Z). change (to_int (Z.of_nat 1)) with (Some 1%Z). cbn [mbind option_bind].
    change (Nat.max 0 (Nat.min (Z.to_nat (Z.max 0 0)) 5)) with 0%nat. change (Nat.max 0 (Nat.min (Z.to_nat (Z.max 0 1)) 5)) with 1%nat.
    change (5 - 0 =? 0)%nat with false. change (5 - 1 =? 0)%nat with false. cbn iota.
    destruct (Rlt_dec (INR 0 * 1 + 0 - INR 0) 0) as [Hx|_]; [simpl in Hx; lra|]. cbn [length Nat.ltb Nat.leb Nat.add Nat.sub].
    cbn [fmap list_fmap lookup list_lookup mbind option_bind]. rewrite !Halong.
    replace (INR 0 * 1 + 0 - INR 0) with 0 by (simpl; lra).
    rewrite (late_accumulate data 0) by (done || simpl; lia). cbn [mbind option_bind].
    destruct (Rlt_dec (INR 1 * 1 + 0 - INR 1) 0) as [Hx|_]; [simpl in Hx; lra|].
    rewrite plus_at_length. cbn [length Nat.leb]. replace (INR 1 * 1 + 0 - INR 1) with 0 by (simpl; lra).
    rewrite (late_accumulate data 1) by (done || rewrite ?plus_at_length; simpl; lia). cbn [mbind option_bind].
    f_equal. rewrite plus_at_plus. unfold plus_at, late, probe, imap, compose. simpl. repeat f_equal; lra.
  - unfold fmap. cbn [list_fmap seq]. rewrite !probe_sum. simpl. repeat f_equal; lra.
Qed.
Print Assumptions C44_null_chunk_before_data_refuted.

(** Non-vacuity of C43: samples 3, 4, 5 of the same signal, which only need the specified chunk. *)
Example C43_nonvacuous : exists G,
  library G linear (fun _ _ _ => True) late /\
  (forall p j, (p <= 1)%nat -> (j < 3)%nat -> time_at probe 1 p <= 3 + INR j * 1 ->
     exists m, found G (ind_r G probe 1 p) (ind_z G probe 1 p) (ind_t G (3 + INR j * 1 - time_at probe 1 p)) (Some m) /\ cm_type m = specified) /\
  apply_accumulate 100 100 G linear false probe 3 1 3 (-1) [0; 0; 7; 0] = Some [0; 1 / 2; 8; 0].
Proof.
  destruct late_data as [data Hst]. exists (late_green data). split; [by apply late_library|].
  assert (forall j, 3 + INR j * 1 = 0 + INR (3 + j) * 1) as Hj3 by (intros j; rewrite plus_INR; simpl; lra).
  assert (forall p j, (p <= 1)%nat -> (j < 3)%nat -> time_at probe 1 p <= 3 + INR j * 1 ->
     exists m, found (late_green data) (ind_r (late_green data) probe 1 p) (ind_z (late_green data) probe 1 p) (ind_t (late_green data) (3 + INR j * 1 - time_at probe 1 p)) (Some m) /\ cm_type m = specified) as Hfd.
  { intros p j Hp Hj Ht. rewrite Hj3, probe_r, probe_z, probe_t by lia. exists late_meta. split; [|done].
    pose proof (late_found data 0 (1 + p) (3 + j - p)) as Hfd. rewrite (proj2 (Nat.ltb_ge (3 + j - p) 2)), (proj2 (Nat.ltb_lt (3 + j - p) 8)) in Hfd by lia. apply Hfd; lia. }
  split; [done|].
  rewrite (C43_signal_from_stored_samples _ _ _ _ (fun _ _ _ => True) _ late _ _ _ _ _ 1);
    [|by left|by apply late_library|lia|lia|lra|cbn [late_green g_interval fst snd]; lra|cbn [late_green g_interval fst snd]; lra|cbn [late_green g_interval fst snd]; lra|simpl; lra|simpl; lra| |intros p j Hp Hj Ht; split; [done|split; [apply late_off|by apply Hfd]]|simpl; lia].
  - unfold imap, compose. rewrite !Hj3. simpl Nat.ltb. cbn iota. rewrite !probe_sum. simpl. repeat f_equal; lra.
  - intros p Hp. rewrite probe_time. assert (0 <= INR p <= 1) as Hp1.
    { split; [apply pos_INR|]. change 1 with (INR 1). by apply le_INR. }
    split; [|]; lra.
Qed.

(** Non-vacuity of the partial C44: samples 5, ..., 9 reach into the null chunk at the end. *)
Example C44_nonvacuous : exists G,
  library G linear (fun _ _ _ => True) late /\
  apply_accumulate 100 100 G linear false probe 5 1 5 (-1) [0; 0; 0; 0; 0] = Some [1; 1 / 2; 0; 0; 0].
Proof.
  destruct late_data as [data Hst]. exists (late_green data). split; [by apply late_library|].
  assert (forall j, 5 + INR j * 1 = 0 + INR (5 + j) * 1) as Hj5 by (intros j; rewrite plus_INR; simpl; lra).
  rewrite (C44_null_chunks_at_the_end_partial _ _ _ _ (fun _ _ _ => True) _ late _ _ _ _ _ 1);
    [|by left|by apply late_library|lia|lia|lra|cbn [late_green g_interval fst snd]; lra|cbn [late_green g_interval fst snd]; lra|cbn [late_green g_interval fst snd]; lra|simpl; lra|simpl; lra| | |simpl; lia].
  - unfold imap, compose. rewrite !Hj5. simpl Nat.ltb. cbn iota. rewrite !probe_sum. simpl. repeat f_equal; lra.
  - intros p Hp. rewrite probe_time. assert (0 <= INR p <= 1) as Hp1.
    { split; [apply pos_INR|]. change 1 with (INR 1). by apply le_INR. }
    split; [|]; lra.
  - intros p j Hp Hj Ht. cbv zeta. rewrite probe_r, probe_z, Hj5. rewrite probe_t by lia.
    split; [done|]. split; [apply late_off|].
    pose proof (late_found data 0 (1 + p)) as Hfd. destruct (decide (5 + j - p < 8)%nat) as [Hlt|Hge].
    + left. exists late_meta. split; [|done]. specialize (Hfd (5 + j - p)%nat).
      rewrite (proj2 (Nat.ltb_ge (5 + j - p) 2)), (proj2 (Nat.ltb_lt (5 + j - p) 8)) in Hfd by lia. apply Hfd; lia.
    + right. intros k Hk. left. exists tail_meta. split; [|done]. rewrite Hj5, probe_t by lia. specialize (Hfd (5 + k - p)%nat).
      rewrite (proj2 (Nat.ltb_ge (5 + k - p) 2)), (proj2 (Nat.ltb_ge (5 + k - p) 8)) in Hfd by lia. apply Hfd; lia.
Qed.

(** * The last sample of a chunk *)
Lemma foldM_last_None {A B} (f : A -> B -> option A) a l x : (forall a, f a x = None) -> foldM f a (l ++ [x]) = None.
Proof. intros Hf. rewrite foldM_app. destruct (foldM f a l); [|done]. cbn [mbind option_bind foldM]. by rewrite Hf. Qed.

(** With an overlap equal to the support of the kernel, which the assert in line 391 accepts, the sample exactly at the end of
    a chunk needs an element beyond the stored array: the chunk [0, 1) x [0, 1) x [0, 1) with overlap 1 and the linear kernel,
    sampled at the end of its last axis in the corner. *)
Theorem C43_overlap_equal_to_support_refuted G id data :
  let m := mk_meta specified [] id [0; 0; 0]%N [1; 1; 1]%N 1 in
  g_data G m = Some data -> api_array 2 data -> a_shape data = [3; 3; 3]%nat ->
  (k_support linear <= N.to_nat (cm_overlap m))%nat /\ cm_end m = [1; 1; 1]%N /\
  chunk_samples G linear m 0 0 1 1 1 = None.
Proof.
  intros m Hd Ha Hsh. split; [done|]. split; [done|]. unfold chunk_samples. rewrite Hd. cbn [mbind option_bind].
  unfold m. rewrite (C46_local_coordinate_exact specified [] id [0; 0; 0]%N [1; 1; 1]%N 1 [0; 0; 1] [0; 0; 1]%N [0; 0; 0]);
    [|done|done|split; repeat constructor|split; repeat constructor; lia|done| |].
  2:{ repeat (apply Forall_cons_2; [lra|]). constructor. }
  2:{ simpl. repeat f_equal; lra. }
  cbn [mbind option_bind zip_with]. change (N.to_nat 0) with 0%nat. change (N.to_nat 1) with 1%nat. unfold interpolate.
  replace (0 - INR 0 + INR 1) with (INR 1 + 0) by (simpl; lra). rewrite (modf_spec 1 0) by lra. cbn [mbind option_bind].
  assert (k_kern linear 0 = Some [1 - 0; 0]) as Hk by (unfold linear; cbn [k_kern]; by rewrite frac_ok_true by lra).
  rewrite !Hk. cbn [mbind option_bind]. change (stencil (k_support linear) 1) with ([1] ++ [2])%nat.
  apply foldM_last_None. intros ret. apply foldM_last_None. intros ret2. cbn [k_support linear].
  cbn [mbind option_bind lookup list_lookup Nat.sub]. cbn [seq foldM].
  replace (1 - INR 0 + INR 1 + INR 0 * 1) with (INR 2 + 0) by (simpl; lra). rewrite (modf_spec 2 0) by lra. cbn [mbind option_bind].
  rewrite Hk. cbn [mbind option_bind]. 
  assert (forall kern q, length kern = 2%nat -> (Z.of_nat (length (a_data data)) <= q + 2)%Z -> interpolate_1d 2 kern (a_data data) q = None) as H1d.
  { intros kern q Hl Hq. unfold interpolate_1d. rewrite Hl. apply (foldM_last_None _ _ [0%nat] 1%nat). intros acc.
    destruct (kern !! 1%nat); [|done]. cbn [mbind option_bind]. cbn [seq mapM]. unfold peek. change (Z.of_nat (2 * 1 + 0)) with 2%Z.
    destruct (Z.leb_spec 0 (q + 2)); [|lia]. rewrite (lookup_ge_None_2 (a_data data) (Z.to_nat (q + 2))) by lia. done. }
  rewrite H1d; [done|done|]. pose proof (api_array_wf _ _ Ha) as (_ & Hst & Hoff & Hlen & _). rewrite Hlen, Hst, Hoff, Hsh. vm_compute. discriminate.
Qed.
Print Assumptions C43_overlap_equal_to_support_refuted.
