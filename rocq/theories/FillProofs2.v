(** Proofs for C61, second part: a chunk, and the whole array. *)
From stdpp Require Import base sets list list_numbers numbers option.
From Coq Require Import Reals Lra Lia ZArith.
From Verif Require Import LoopsModel LoopsProofs NDArrayModel NDArrayProofs NDArrayOps NDArrayOps3 NDArrayProps IndexSpec KernelModel KernelProps InterpModel InterpProps BBoxModel
  ChunkMetaModel ChunkMetaProps SignalModel SignalProps FillModel FillSpec FillProofs.
Local Open Scope R_scope.

Definition pr (v : R * R) : list R := [v.1; v.2].

Lemma columns_spec n1 n2 n3 a3 b3 (col : nat -> nat -> option (list (list R))) (f : nat -> nat -> nat -> R * R) outer arr :
  wf_owned 2 arr -> a_shape arr = [n1; n2; n3] -> (a3 <= b3 <= n3)%nat -> (a3 < n3)%nat -> (1 <= b3)%nat ->
  (forall o, o ∈ outer -> exists i j, o = [i; j] /\ (i < n1)%nat /\ (j < n2)%nat /\ col i j = Some (pairs ((fun s => f i j (a3 + s)%nat) <$> seq 0 (b3 - a3)))) ->
  exists arr', foldM (fun arr o => match o with [o1; o2] => buf ← col o1 o2; fill_column arr (column buf) [o1; o2; a3] | _ => None end) arr outer = Some arr' /\
    wf_owned 2 arr' /\ a_shape arr' = [n1; n2; n3] /\
    forall i j k, (i < n1)%nat -> (j < n2)%nat -> (k < n3)%nat ->
      (([i; j] ∈ outer /\ (a3 <= k < b3)%nat) -> aread 2 arr' [i; j; k] = Some (pr (f i j k))) /\
      (~ ([i; j] ∈ outer /\ (a3 <= k < b3)%nat) -> aread 2 arr' [i; j; k] = aread 2 arr [i; j; k]).
Proof.
  revert arr. induction outer as [|o outer IH]; intros arr Hwf Hsh Hab Ha Hb Ho.
  - exists arr. split; [done|]. split; [done|]. split; [done|]. intros i j k Hi Hj Hk. split; [|done]. intros [H _]. by apply elem_of_nil in H.
  - destruct (Ho o) as (i0 & j0 & -> & Hi0 & Hj0 & Hcol); [set_solver|]. cbn [foldM]. rewrite Hcol. cbn [mbind option_bind].
    set (vs := (fun s => f i0 j0 (a3 + s)%nat) <$> seq 0 (b3 - a3)). assert (length (pairs vs) = b3 - a3)%nat as Hlen by (unfold pairs, vs; by rewrite !fmap_length, seq_length).
    assert (exists arr1, fill_column arr (column (pairs vs)) [i0; j0; a3] = Some arr1 /\ wf_owned 2 arr1 /\ a_shape arr1 = [n1; n2; n3] /\
      forall i j k, (i < n1)%nat -> (j < n2)%nat -> (k < n3)%nat -> aread 2 arr1 [i; j; k] = if decide (i = i0 /\ j = j0 /\ (a3 <= k < b3)%nat) then Some (pr (f i j k)) else aread 2 arr [i; j; k]) as (arr1 & E1 & W1 & S1 & R1).
    { unfold fill_column. cbn [column a_shape]. unfold vlast at 1. cbn [List.last]. rewrite Hlen. destruct (decide (b3 - a3 = 0)%nat) as [Hz|Hz].
      - rewrite Hz, Nat.eqb_refl. destruct Hwf as (W1 & W2 & W3 & W4 & W5). rewrite W5, Hsh. cbn [has_index andb]. unfold vlast. cbn [List.last].
        rewrite !(proj2 (Nat.ltb_lt _ _)) by done. cbn [andb]. rewrite (proj2 (Nat.leb_le _ _)) by lia. exists arr. split; [done|]. split; [by repeat split|]. split; [done|].
        intros i j k _ _ _. rewrite decide_False; [done|]. lia.
      - rewrite (proj2 (Nat.eqb_neq _ _)) by done. destruct (afill_col_spec 2 arr (column (pairs vs)) [i0; j0] a3 (b3 - a3) [n1; n2] n3) as (arr1 & E1 & W1 & S1 & R1); try done.
        + apply column_wf, pairs_wf.
        + cbn [column a_shape]. by rewrite Hlen.
        + lia.
        + cbn. lia.
        + lia.
        + exists arr1. split; [done|]. split; [done|]. split; [congruence|]. intros i j k Hi Hj Hk. change [i; j; k] with ([i; j] ++ [k]). rewrite R1; [|cbn; lia|done].
          destruct (decide (i = i0 /\ j = j0 /\ (a3 <= k < b3)%nat)) as [(-> & -> & Hk2)|Hno].
          * rewrite decide_True by (split; [done|lia]). apply column_read; [apply pairs_wf|]. unfold pairs, vs. rewrite !list_lookup_fmap, lookup_seq_lt by lia. cbn [fmap option_fmap option_map].
            rewrite Nat.add_0_l. replace (a3 + (k - a3))%nat with k by lia. done.
          * rewrite decide_False; [done|]. intros [[= -> ->] ?]. apply Hno. lia. }
    rewrite E1. cbn [mbind option_bind]. destruct (IH arr1 W1 S1 Hab Ha Hb) as (arr' & E & W & S & R). { intros o' Ho'. apply Ho. set_solver. }
    exists arr'. split; [done|]. split; [done|]. split; [done|]. intros i j k Hi Hj Hk. destruct (R i j k Hi Hj Hk) as [RA RB]. pose proof (R1 i j k Hi Hj Hk) as R1'. clear R R1. split.
    + intros [Hin Hk2]. destruct (decide ([i; j] ∈ outer)) as [Hin2|Hin2]; [by apply RA|]. rewrite RB by tauto. rewrite R1'. rewrite decide_True; [done|].
      apply elem_of_cons in Hin as [[= -> ->]|Hin]; [done|done].
    + intros Hno. rewrite RB, R1'. { rewrite decide_False; [done|]. intros (-> & -> & Hk2). apply Hno. split; [set_solver|done]. } intros [Hin Hk2]. apply Hno. split; [set_solver|done].
Qed.

Lemma within_meta ty path id s1 s2 s3 n1 n2 n3 ov r z t : fits [s1; s2; s3] [n1; n2; n3] ov ->
  within (mk_meta ty path id [s1; s2; s3] [n1; n2; n3] ov) r z t <->
  INR (N.to_nat s1) <= r <= INR (N.to_nat (s1 + n1)) /\ INR (N.to_nat s2) <= z <= INR (N.to_nat (s2 + n2)) /\ INR (N.to_nat s3) <= t <= INR (N.to_nat (s3 + n3)).
Proof.
  intros Hf. assert (cm_end (mk_meta ty path id [s1; s2; s3] [n1; n2; n3] ov) = [s1 + n1; s2 + n2; s3 + n3]%N) as He.
  { destruct Hf as [F _]. cbn [zip_with] in F. rewrite !list.Forall_cons in F. destruct F as (F1 & F2 & F3 & _). cbn [mk_meta cm_end]. unfold DownsampleModel.vwadd. cbn [zip_with]. unfold wadd. rewrite !N.mod_small by (unfold W; lia). done. }
  split.
  - intros (a1 & a2 & a3 & b1 & b2 & b3 & E1 & E2 & H). rewrite He in E2. cbn [mk_meta cm_start] in E1. injection E1 as <- <- <-. injection E2 as <- <- <-. done.
  - intros H. exists s1, s2, s3, (s1 + n1)%N, (s2 + n2)%N, (s3 + n3)%N. done.
Qed.
Lemma meta_end ty path id s1 s2 s3 n1 n2 n3 ov : fits [s1; s2; s3] [n1; n2; n3] ov ->
  cm_end (mk_meta ty path id [s1; s2; s3] [n1; n2; n3] ov) = [s1 + n1; s2 + n2; s3 + n3]%N.
Proof.
  intros [F _]. cbn [zip_with] in F. rewrite !list.Forall_cons in F. destruct F as (F1 & F2 & F3 & _). cbn [mk_meta cm_end]. unfold DownsampleModel.vwadd. cbn [zip_with]. unfold wadd. rewrite !N.mod_small by (unfold W; lia). done.
Qed.

(** One chunk. *)
Lemma fill_chunk_spec G K g f1 f2 f3 d1 d2 d3 n1 n2 n3 arr m :
  K = linear \/ K = keys -> 0 < d1 -> 0 < d2 -> 0 < d3 -> (2 <= n1)%nat -> (2 <= n2)%nat -> (2 <= n3)%nat -> 0 <= f1 -> 0 <= f2 -> 0 <= f3 ->
  held G K g m -> (forall s1 s2 s3 e1 e2 e3, cm_start m = [s1; s2; s3] -> cm_end m = [e1; e2; e3] ->
    f1 < INR (N.to_nat e1) /\ f2 < INR (N.to_nat e2) /\ f3 < INR (N.to_nat e3) /\
    INR (N.to_nat s1) < f1 + INR (n1 - 1) * d1 /\ INR (N.to_nat s2) < f2 + INR (n2 - 1) * d2 /\ INR (N.to_nat s3) < f3 + INR (n3 - 1) * d3) ->
  wf_owned 2 arr -> a_shape arr = [n1; n2; n3] ->
  exists arr', fill_chunk G K (f1, f2, f3) (d1, d2, d3) (n1, n2, n3) arr m = Some arr' /\ wf_owned 2 arr' /\ a_shape arr' = [n1; n2; n3] /\
    forall i j k, (i < n1)%nat -> (j < n2)%nat -> (k < n3)%nat -> let r := f1 + INR i * d1 in let z := f2 + INR j * d2 in let t := f3 + INR k * d3 in
      (cm_type m = specified /\ within m r z t -> aread 2 arr' [i; j; k] = Some (pr (grid_field K g r z t))) /\
      (~ (cm_type m = specified /\ within m r z t) -> aread 2 arr' [i; j; k] = aread 2 arr [i; j; k]).
Proof.
  intros HK Hd1 Hd2 Hd3 Hn1 Hn2 Hn3 Hf1 Hf2 Hf3 (ty & path & id & s1 & s2 & s3 & m1 & m2 & m3 & ov & -> & Hfit & Hov & Hovw & (Hm1 & Hm2 & Hm3) & Hty) Hlim Hwf Hsh.
  pose proof (meta_end ty path id s1 s2 s3 m1 m2 m3 ov Hfit) as He. unfold fill_chunk. rewrite He. cbn [mk_meta cm_type cm_start].
  destruct (Hlim s1 s2 s3 _ _ _ eq_refl He) as (L1 & L2 & L3 & L4 & L5 & L6).
  destruct Hty as [[-> (data & Hdata & Hst)]|[-> _]].
  2:{ exists arr. split; [done|]. split; [done|]. split; [done|]. intros i j k _ _ _. split; [|done]. intros [H _]. discriminate H. }
  change (specified =? all_null)%N with false. cbn iota. rewrite Hdata. cbn [mbind option_bind fst snd].
  destruct (out_range_spec f1 d1 n1 s1 (s1 + m1) Hd1 Hn1 ltac:(lia) L1 L4) as (a1 & b1 & E1 & A1 & B1 & C1 & D1). rewrite E1. cbn [mbind option_bind].
  destruct (out_range_spec f2 d2 n2 s2 (s2 + m2) Hd2 Hn2 ltac:(lia) L2 L5) as (a2 & b2 & E2 & A2 & B2 & C2 & D2). rewrite E2. cbn [mbind option_bind].
  destruct (out_range_spec f3 d3 n3 s3 (s3 + m3) Hd3 Hn3 ltac:(lia) L3 L6) as (a3 & b3 & E3 & A3 & B3 & C3 & D3). rewrite E3. cbn [mbind option_bind].
  rewrite (proj2 (Nat.ltb_ge _ _)) by lia. rewrite elem_loop_spec by done. cbn [mbind option_bind].
  set (mm := mk_meta specified path id [s1; s2; s3] [m1; m2; m3] ov) in *.
  assert (forall i j, [i; j] ∈ box_elems [a1; a2] [b1; b2] <-> (a1 <= i < b1 /\ a2 <= j < b2)%nat) as Hbox. { intros i j. rewrite elem_of_box_elems. cbn. tauto. }
  destruct (columns_spec n1 n2 n3 a3 b3 (fun o1 o2 => chunk_samples G K mm (INR o1 * d1 + f1) (INR o2 * d2 + f2) (INR a3 * d3 + f3) d3 (b3 - a3))
     (fun i j k => grid_field K g (f1 + INR i * d1) (f2 + INR j * d2) (f3 + INR k * d3)) (box_elems [a1; a2] [b1; b2]) arr) as (arr' & E & W & S & R); try done; try lia.
  { intros o Ho. apply elem_of_box_elems in Ho as Ho'. pose proof (in_box_length _ _ _ Ho') as [Ho1 Ho2]. destruct o as [|i [|j [|? ?]]]; try done. apply Hbox in Ho as [Hi Hj].
    exists i, j. split; [done|]. split; [lia|]. split; [lia|]. pose proof (proj1 (D1 i ltac:(lia)) Hi) as P1. pose proof (proj1 (D2 j ltac:(lia)) Hj) as P2.
    assert (INR (N.to_nat s3) <= f3 + INR a3 * d3) as P3.
    { destruct (decide (a3 < b3)%nat) as [Hab|Hab]; [destruct (proj1 (D3 a3 ltac:(lia)) ltac:(lia)); lra|]. destruct (Rle_dec (INR (N.to_nat s3)) (f3 + INR a3 * d3)) as [|Hno]; [done|]. exfalso.
      (* otherwise a3 would have been rounded up further *)
      unfold out_range, ceil_nonneg in E3. destruct (Rle_dec 0 _) as [_|]; [|done]. cbn [mbind option_bind] in E3. destruct (floor_nonneg _); [|done]. cbn [mbind option_bind] in E3. injection E3 as <- _.
      set (x := (INR (N.to_nat s3) - f3) / d3) in *. pose proof (ceiling_spec (Rmax x 0)) as Hc. pose proof (Rmax_l x 0). pose proof (Rmax_r x 0). apply Hno.
      assert (0 <= ceiling (Rmax x 0))%Z by (apply le_IZR; lra). rewrite (INR_IZR_INZ (Z.to_nat _)), Z2Nat.id by done. assert (x <= IZR (ceiling (Rmax x 0))) as Hx by lra. apply (Rmult_le_compat_r d3) in Hx; [|lra].
      replace (x * d3) with (INR (N.to_nat s3) - f3) in Hx by (unfold x; field; lra). lra. }
    destruct (cell_exists (INR i * d1 + f1)) as [ir Cr]. { assert (0 <= INR i * d1) by (apply Rmult_le_pos; [apply pos_INR|lra]). lra. }
    destruct (cell_exists (INR j * d2 + f2)) as [iz Cz]. { assert (0 <= INR j * d2) by (apply Rmult_le_pos; [apply pos_INR|lra]). lra. }
    assert (forall x (s e : N) c, cell x c -> INR (N.to_nat s) <= x <= INR (N.to_nat e) -> (N.to_nat s <= c <= N.to_nat e)%nat) as Hcell.
    { intros x s e c [Q1 Q2] [Q3 Q4]. split; [|apply INR_le; lra]. assert (N.to_nat s < Datatypes.S c)%nat; [|lia]. apply INR_lt. rewrite S_INR. lra. }
    unfold mm. rewrite (chunk_serves_closed G K g specified path id s1 s2 s3 m1 m2 m3 ov data _ _ _ _ _ ir iz HK Hfit Hovw Hdata Hst Cr Cz); try done.
    - f_equal. f_equal. apply list_fmap_ext. intros s x Hx. rewrite (plus_INR a3 x). f_equal; try lra.
    - apply (Hcell _ _ _ _ Cr). lra.
    - apply (Hcell _ _ _ _ Cz). lra.
    - lra.
    - intros s Hs. pose proof (proj1 (D3 (a3 + s)%nat ltac:(lia)) ltac:(lia)) as P4. rewrite plus_INR in P4. lra. }
  exists arr'. split; [exact E|]. split; [done|]. split; [done|]. intros i j k Hi Hj Hk. cbv zeta.
  pose proof (within_meta specified path id s1 s2 s3 m1 m2 m3 ov (f1 + INR i * d1) (f2 + INR j * d2) (f3 + INR k * d3) Hfit) as Hw. fold mm in Hw.
  specialize (D1 i Hi). specialize (D2 j Hj). specialize (D3 k Hk). destruct (R i j k Hi Hj Hk) as [RA RB]. specialize (Hbox i j). split.
  - intros [_ H]. apply Hw in H. apply RA. rewrite Hbox. tauto.
  - intros H. apply RB. intros [Q1 Q2]. apply H. split; [done|]. apply Hw. rewrite Hbox in Q1. tauto.
Qed.

Lemma Rle2_dec a x b : a <= x <= b \/ ~ (a <= x <= b).
Proof. destruct (Rle_dec a x), (Rle_dec x b); tauto. Qed.
Lemma Rbox_dec a x b c y d e z f : (a <= x <= b /\ c <= y <= d /\ e <= z <= f) \/ ~ (a <= x <= b /\ c <= y <= d /\ e <= z <= f).
Proof. destruct (Rle2_dec a x b), (Rle2_dec c y d), (Rle2_dec e z f); tauto. Qed.
(** All chunks. *)
Lemma fill_chunks_spec G K g f1 f2 f3 d1 d2 d3 n1 n2 n3 ms : forall arr,
  K = linear \/ K = keys -> 0 < d1 -> 0 < d2 -> 0 < d3 -> (2 <= n1)%nat -> (2 <= n2)%nat -> (2 <= n3)%nat -> 0 <= f1 -> 0 <= f2 -> 0 <= f3 ->
  (forall m, m ∈ ms -> held G K g m /\ forall s1 s2 s3 e1 e2 e3, cm_start m = [s1; s2; s3] -> cm_end m = [e1; e2; e3] ->
    f1 < INR (N.to_nat e1) /\ f2 < INR (N.to_nat e2) /\ f3 < INR (N.to_nat e3) /\
    INR (N.to_nat s1) < f1 + INR (n1 - 1) * d1 /\ INR (N.to_nat s2) < f2 + INR (n2 - 1) * d2 /\ INR (N.to_nat s3) < f3 + INR (n3 - 1) * d3) ->
  wf_owned 2 arr -> a_shape arr = [n1; n2; n3] ->
  exists arr', foldM (fill_chunk G K (f1, f2, f3) (d1, d2, d3) (n1, n2, n3)) arr ms = Some arr' /\ wf_owned 2 arr' /\ a_shape arr' = [n1; n2; n3] /\
    forall i j k, (i < n1)%nat -> (j < n2)%nat -> (k < n3)%nat -> let r := f1 + INR i * d1 in let z := f2 + INR j * d2 in let t := f3 + INR k * d3 in
      ((exists m, m ∈ ms /\ cm_type m = specified /\ within m r z t) -> aread 2 arr' [i; j; k] = Some (pr (grid_field K g r z t))) /\
      (~ (exists m, m ∈ ms /\ cm_type m = specified /\ within m r z t) -> aread 2 arr' [i; j; k] = aread 2 arr [i; j; k]).
Proof.
  induction ms as [|m ms IH]; intros arr HK Hd1 Hd2 Hd3 Hn1 Hn2 Hn3 Hf1 Hf2 Hf3 Hms Hwf Hsh.
  - exists arr. split; [done|]. split; [done|]. split; [done|]. intros i j k _ _ _ r z t. split; [|done]. intros (m & H & _). by apply elem_of_nil in H.
  - destruct (Hms m) as [Hm Hl]; [set_solver|]. destruct (fill_chunk_spec G K g f1 f2 f3 d1 d2 d3 n1 n2 n3 arr m HK Hd1 Hd2 Hd3 Hn1 Hn2 Hn3 Hf1 Hf2 Hf3 Hm Hl Hwf Hsh) as (arr1 & E1 & W1 & S1 & R1).
    destruct (IH arr1 HK Hd1 Hd2 Hd3 Hn1 Hn2 Hn3 Hf1 Hf2 Hf3) as (arr' & E & W & S & R); [|done|done|]. { intros m' Hm'. apply Hms. set_solver. }
    exists arr'. split; [cbn [foldM]; rewrite E1; exact E|]. split; [done|]. split; [done|]. intros i j k Hi Hj Hk. destruct (R i j k Hi Hj Hk) as [RA RB]. destruct (R1 i j k Hi Hj Hk) as [RC RD]. cbv zeta in *. clear R R1.
    assert (Decision (cm_type m = specified)) as Hdt by apply _.
    set (r := f1 + INR i * d1) in *. set (z := f2 + INR j * d2) in *. set (t := f3 + INR k * d3) in *.
    assert (forall m, held G K g m -> within m r z t \/ ~ within m r z t) as Hdec.
    { intros m0 (ty & path & id & s1 & s2 & s3 & m1 & m2 & m3 & ov & -> & Hfit & _). rewrite (within_meta ty path id s1 s2 s3 m1 m2 m3 ov r z t Hfit).
      apply Rbox_dec. }
    assert ((exists m, m ∈ ms /\ cm_type m = specified /\ within m r z t) \/ ~ (exists m, m ∈ ms /\ cm_type m = specified /\ within m r z t)) as Hdec2.
    { clear - Hms Hdec. assert (forall m, m ∈ ms -> held G K g m) as Hh by (intros m' Hm'; apply Hms; set_solver). clear Hms. induction ms as [|x l IHl].
      - right. intros (m' & H & _). by apply elem_of_nil in H.
      - destruct IHl as [(m' & H1 & H2)|Hno]; [intros; apply Hh; set_solver|left; exists m'; split; [set_solver|done]|].
        destruct (Hdec x) as [Hw|Hw]; [apply Hh; set_solver| |].
        + destruct (decide (cm_type x = specified)) as [Ht|Ht]; [left; exists x; split; [set_solver|done]|]. right. intros (m' & [->|H]%elem_of_cons & H2 & H3); [done|]. apply Hno. eauto.
        + right. intros (m' & [->|H]%elem_of_cons & H2 & H3); [done|]. apply Hno. eauto. }
    split.
    + intros (m' & Hin & Ht & Hw). destruct Hdec2 as [H|H]; [by apply RA|]. rewrite (RB H). apply RC. apply elem_of_cons in Hin as [->|Hin]; [done|]. destruct H. eauto.
    + intros Hno. rewrite RB; [apply RD|].
      * intros [Ht Hw]. apply Hno. exists m. split; [set_solver|done].
      * intros (m' & Hin & H). apply Hno. exists m'. split; [set_solver|done].
Qed.
