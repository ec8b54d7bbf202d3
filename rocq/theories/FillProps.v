(** C61: sampling a Green's function on a regular grid. *)
From stdpp Require Import base sets list list_numbers numbers option.
From Coq Require Import Reals Lra Lia ZArith.
From Verif Require Import LoopsModel LoopsProofs NDArrayModel NDArrayProofs NDArrayOps NDArrayOps3 NDArrayProps IndexSpec KernelModel KernelProps InterpModel InterpProps BBoxModel
  ChunkMetaModel ChunkMetaProps SignalModel SignalProps FillModel FillSpec FillProofs FillProofs2.
Local Open Scope R_scope.

Lemma axis_in_range_true x a b : a <= x -> x <= b -> axis_in_range x a b = true.
Proof. intros H1 H2. unfold axis_in_range. destruct (Rlt_dec x a); [lra|]. destruct (Rlt_dec b x); [lra|done]. Qed.
Lemma to_size_trunc x : 0 <= x -> exists i, to_size x = Some i /\ N.of_nat i = trunc x /\ cell x i.
Proof. intros Hx. destruct (cell_exists x Hx) as [i Hi]. exists i. split; [by apply to_size_cell|]. split; [|done]. unfold trunc. rewrite (Int_part_cell _ _ Hi). lia. Qed.
Lemma trunc_cell x : 0 <= x -> cell x (N.to_nat (trunc x)).
Proof. intros Hx. destruct (to_size_trunc x Hx) as (i & _ & E & Hc). by rewrite <- E, Nat2N.id. Qed.
Lemma trunc_le x (i : N) : 0 <= x -> (i <= trunc x)%N <-> INR (N.to_nat i) <= x.
Proof.
  intros Hx. destruct (trunc_cell x Hx) as [H1 H2]. split; intros H.
  - assert (N.to_nat i <= N.to_nat (trunc x))%nat as H' by lia. apply le_INR in H'. lra.
  - assert (N.to_nat i < S (N.to_nat (trunc x)))%nat; [|lia]. apply INR_lt. rewrite S_INR. lra.
Qed.
(** The arithmetic of one axis. *)
Lemma axis_step s d a b n : 0 < d -> a < b -> (2 <= n)%nat -> s <= a ->
  let f0 := (a - s) / d in let f1 := (b - s) / d in let st := (f1 - f0) / (INR n - 1) in
  0 <= f0 /\ f0 < f1 /\ 0 < st /\ f0 + INR (n - 1) * st = f1 /\ (forall o, f0 + INR o * st = index_pos s d (sample_pos a b n o)).
Proof.
  intros Hd Hab Hn Hs. cbv zeta. assert (2 <= INR n) as Hn2. { change 2 with (INR 2). by apply le_INR. }
  assert (0 < / d) as Hi by (by apply Rinv_0_lt_compat). split; [apply Rmult_le_pos; lra|].
  assert ((a - s) / d < (b - s) / d) as Hlt by (apply Rmult_lt_compat_r; lra). split; [done|].
  split. { apply Rmult_lt_0_compat; [lra|]. apply Rinv_0_lt_compat. lra. }
  split. { rewrite minus_INR by lia. change (INR 1) with 1. field. lra. }
  intros o. unfold index_pos, sample_pos. field. lra.
Qed.

Section fill.
Context (G : green) (m_end : R * R * R) (cs : list chunk_meta) (search : list N -> list N -> list chunk_meta) (K : kernel) (g : Z -> Z -> Z -> nat -> R)
  (p q : R * R * R) (n : nat * nat * nat) (junk : R) (arr : ndarr R).
Local Notation ok := (ok_fill G m_end cs search K g p q n).
Local Notation in_shape3 o1 o2 o3 := ((o1 < n.1.1)%nat /\ (o2 < n.1.2)%nat /\ (o3 < n.2)%nat).
Local Notation "'x1'" := (sample_r G p q n). Local Notation "'x2'" := (sample_z G p q n). Local Notation "'x3'" := (sample_t G p q n).

(** Every sample that lies in a chunk returned by the index (its far faces included) is the interpolated field at its position, and all others are
    zero. *)
Theorem C61_fill_partial : ok -> a_owns arr = true ->
  exists arr', fill_array G m_end search K junk p q n arr = Some arr' /\ a_shape arr' = [n.1.1; n.1.2; n.2] /\
    forall o1 o2 o3, in_shape3 o1 o2 o3 ->
      (seen G cs p q (x1 o1) (x2 o2) (x3 o3) -> aread 2 arr' [o1; o2; o3] = Some (pr (grid_field K g (x1 o1) (x2 o2) (x3 o3)))) /\
      (~ seen G cs p q (x1 o1) (x2 o2) (x3 o3) -> aread 2 arr' [o1; o2; o3] = Some [0; 0]).
Proof using.
  intros [HK (I1 & I2 & I3) (R1 & R2 & R3 & R4 & R5 & R6 & R7 & R8 & R9) (N1 & N2 & N3) Hch Hse] Hown.
  unfold fill_array, sample_r, sample_z, sample_t, seen, first_ind, last_ind in *. unfold at_r, at_z, at_t in *. destruct n as [[n1 n2] n3], p as [[p1 p2] p3], q as [[q1 q2] q3], m_end as [[e1 e2] e3].
  destruct (g_start G) as [[g1 g2] g3] eqn:Hgs, (g_interval G) as [[d1 d2] d3] eqn:Hgi. cbn [fst snd] in *.
  rewrite !axis_in_range_true by lra. cbn [andb].
  unfold aresize. rewrite Hown. cbn [mbind option_bind a_shape a_strides a_off a_data a_owns].
  destruct (Req_EM_T d1 0); [lra|]. destruct (Req_EM_T d2 0); [lra|]. destruct (Req_EM_T d3 0); [lra|].
  rewrite !(proj2 (Nat.eqb_neq _ _)) by lia. cbn [orb].
  destruct (axis_step g1 d1 p1 q1 n1 I1 R2 N1 R1) as (A1 & B1 & C1 & D1 & E1). destruct (axis_step g2 d2 p2 q2 n2 I2 R5 N2 R4) as (A2 & B2 & C2 & D2 & E2). destruct (axis_step g3 d3 p3 q3 n3 I3 R8 N3 R7) as (A3 & B3 & C3 & D3 & E3).
  change (index_pos g1 d1 p1) with ((p1 - g1) / d1) in Hse. change (index_pos g2 d2 p2) with ((p2 - g2) / d2) in Hse. change (index_pos g3 d3 p3) with ((p3 - g3) / d3) in Hse.
  change (index_pos g1 d1 q1) with ((q1 - g1) / d1) in Hse. change (index_pos g2 d2 q2) with ((q2 - g2) / d2) in Hse. change (index_pos g3 d3 q3) with ((q3 - g3) / d3) in Hse.
  change (index_pos g1 d1 p1) with ((p1 - g1) / d1). change (index_pos g2 d2 p2) with ((p2 - g2) / d2). change (index_pos g3 d3 p3) with ((p3 - g3) / d3).
  change (index_pos g1 d1 q1) with ((q1 - g1) / d1). change (index_pos g2 d2 q2) with ((q2 - g2) / d2). change (index_pos g3 d3 q3) with ((q3 - g3) / d3).
  set (f1 := (p1 - g1) / d1) in *. set (f2 := (p2 - g2) / d2) in *. set (f3 := (p3 - g3) / d3) in *. set (h1 := (q1 - g1) / d1) in *. set (h2 := (q2 - g2) / d2) in *. set (h3 := (q3 - g3) / d3) in *.
  set (st1 := (h1 - f1) / (INR n1 - 1)) in *. set (st2 := (h2 - f2) / (INR n2 - 1)) in *. set (st3 := (h3 - f3) / (INR n3 - 1)) in *.
  destruct (to_size_trunc f1 A1) as (s1 & T1 & U1 & V1). destruct (to_size_trunc f2 A2) as (s2 & T2 & U2 & V2). destruct (to_size_trunc f3 A3) as (s3 & T3 & U3 & V3).
  destruct (to_size_trunc h1 ltac:(lra)) as (z1 & T4 & U4 & V4). destruct (to_size_trunc h2 ltac:(lra)) as (z2 & T5 & U5 & V5). destruct (to_size_trunc h3 ltac:(lra)) as (z3 & T6 & U6 & V6).
  rewrite T1, T2, T3, T4, T5, T6. cbn [mbind option_bind]. destruct (Req_EM_T st1 0); [lra|]. destruct (Req_EM_T st2 0); [lra|]. destruct (Req_EM_T st3 0); [lra|].
  rewrite U1, U2, U3, U4, U5, U6.
  set (arr0 := NDArr [n1; n2; n3] _ _ _ _). assert (wf_owned 2 arr0) as W0.
  { split; [done|]. split; [done|]. split; [done|]. split; [|done]. unfold arr0. cbn [a_data a_shape]. by rewrite replicate_length, vresize_length. }
  assert (forall o1 o2 o3, (o1 < n1)%nat -> (o2 < n2)%nat -> (o3 < n3)%nat -> aread 2 arr0 [o1; o2; o3] = Some [0; 0]) as Z0.
  { intros o1 o2 o3 H1 H2 H3. assert (in_shape (a_shape arr0) [o1; o2; o3]) as Hin by (apply in_shape_forall2; repeat constructor; done).
    pose proof (wf_owned_wf _ _ W0) as [_ Hb]. specialize (Hb _ Hin). unfold aread. rewrite (proj2 (has_index_true _ _)) by done. unfold block.
    rewrite (proj2 (Nat.leb_le _ _)) by lia. f_equal. clear - Hb. revert Hb. set (len := length (vresize _ _ _)) in arr0. change (a_data arr0) with (replicate len 0). generalize (flat_ind (a_strides arr0) (a_off arr0) [o1; o2; o3]) as x. intros x Hb. rewrite replicate_length in Hb.
    rewrite drop_replicate, take_replicate, Nat.min_l by lia. done. }
  destruct (fill_chunks_spec G K g f1 f2 f3 st1 st2 st3 n1 n2 n3 (search [trunc f1; trunc f2; trunc f3] [trunc h1; trunc h2; trunc h3]) arr0) as (arr' & F & W & S & R); try done.
  { intros m Hm. apply Hse in Hm as [Hm [Q1 Q2]]. split; [by apply Hch|]. intros a1 a2 a3 b1 b2 b3 Es Ee. rewrite Es in Q1. rewrite Ee in Q2.
    inversion_clear Q1 as [|? ? ? ? P1 Q]. inversion_clear Q as [|? ? ? ? P2 Q']. inversion_clear Q' as [|? ? ? ? P3 _].
    inversion_clear Q2 as [|? ? ? ? P4 Q]. inversion_clear Q as [|? ? ? ? P5 Q']. inversion_clear Q' as [|? ? ? ? P6 _]. rewrite D1, D2, D3.
    assert (forall x b, 0 <= x -> (trunc x < b)%N -> x < INR (N.to_nat b)) as Hlt.
    { intros x b Hx Hb. destruct (Rlt_dec x (INR (N.to_nat b))) as [|Hno]; [done|]. assert (b <= trunc x)%N; [|lia]. apply trunc_le; [done|lra]. }
    assert (forall x a, 0 <= x -> (a < trunc x)%N -> INR (N.to_nat a) < x) as Hgt.
    { intros x a Hx Ha. destruct (trunc_cell x Hx) as [Hc _]. assert (N.to_nat a < N.to_nat (trunc x))%nat as H' by lia. apply lt_INR in H'. lra. }
    repeat split; first [by apply Hlt|apply Hgt; [lra|done]]. }
  exists arr'. split; [exact F|]. split; [done|]. intros o1 o2 o3 (H1 & H2 & H3). specialize (R o1 o2 o3 H1 H2 H3). cbv zeta in R. rewrite E1, E2, E3 in R. destruct R as [RA RB]. split.
  - intros (m & Hm & Hq & Ht & Hw). apply RA. exists m. split; [by apply Hse|done].
  - intros Hno. rewrite RB; [by apply Z0|]. intros (m & Hm & Ht & Hw). apply Hno. apply Hse in Hm as [Hm Hq]. by exists m.
Qed.

(** If the chunks cover the requested range and no chunk begins at the truncated end of the range (or the range ends exactly there), every sample is the interpolated field. *)
Theorem C61_complete_partial : ok -> a_owns arr = true -> range_covered G cs p q -> end_not_cut G cs q ->
  exists arr', fill_array G m_end search K junk p q n arr = Some arr' /\ a_shape arr' = [n.1.1; n.1.2; n.2] /\
    forall o1 o2 o3, in_shape3 o1 o2 o3 -> aread 2 arr' [o1; o2; o3] = Some (pr (grid_field K g (x1 o1) (x2 o2) (x3 o3))).
Proof using.
  intros Hok Hown Hcov Hcut. destruct (C61_fill_partial Hok Hown) as (arr' & E & Hsh & HR). exists arr'. split; [done|]. split; [done|]. intros o1 o2 o3 Ho.
  destruct (HR o1 o2 o3 Ho) as [RA RB]. clear HR E.
  destruct Hok as [HK (I1 & I2 & I3) (R1 & R2 & R3 & R4 & R5 & R6 & R7 & R8 & R9) (N1 & N2 & N3) Hch Hse]. destruct Ho as (O1 & O2 & O3).
  unfold sample_r, sample_z, sample_t, seen, first_ind, last_ind, range_covered, end_not_cut in *. unfold at_r, at_z, at_t in *.
  destruct (axis_step _ _ _ _ _ I1 R2 N1 R1) as (A1 & B1 & C1 & D1 & E1). destruct (axis_step _ _ _ _ _ I2 R5 N2 R4) as (A2 & B2 & C2 & D2 & E2). destruct (axis_step _ _ _ _ _ I3 R8 N3 R7) as (A3 & B3 & C3 & D3 & E3).
  (* along one axis: a cell whose chunk is queried and holds the sample *)
  assert (forall f0 f1 st (k o : nat) x, 0 <= f0 -> f0 < f1 -> 0 < st -> f0 + INR (k - 1) * st = f1 -> (o < k)%nat -> f0 + INR o * st = x ->
    exists i : N, (trunc f0 <= i)%N /\ INR (N.to_nat i) < f1 /\ forall s e : N, (s <= i)%N -> (i < e)%N -> (s <> trunc f1 \/ f1 = INR (N.to_nat (trunc f1))) ->
      (s < trunc f1)%N /\ (trunc f0 < e)%N /\ INR (N.to_nat s) <= x <= INR (N.to_nat e)) as Haxis.
  { intros f0 f1 st k o x Q1 Q2 Q3 Q4 Q5 Q6. assert (f0 <= x <= f1) as [Hx1 Hx2].
    { split; [assert (0 <= INR o * st) by (apply Rmult_le_pos; [apply pos_INR|lra]); lra|]. assert (INR o <= INR (k - 1)) as H by (apply le_INR; lia). apply (Rmult_le_compat_r st) in H; lra. }
    assert (0 <= f1) as Hf1 by lra. assert (0 <= x) as Hx by lra. destruct (trunc_cell f1 Hf1) as [F1 F2]. destruct (trunc_cell x Hx) as [X1 X2].
    assert (trunc f0 <= trunc x)%N as Ht. { apply trunc_le; [done|]. destruct (trunc_cell f0 Q1). lra. }
    assert (trunc x <= trunc f1)%N as Ht'. { apply trunc_le; lra. }
    destruct (Req_dec f1 (INR (N.to_nat (trunc f1)))) as [Ei|Ei]; [destruct (Req_dec x f1) as [Ex|Ex]|].
    - (* the last sample, exactly on an index: taken from the cell before *)
      assert (INR (N.to_nat (trunc f0)) < INR (N.to_nat (trunc f1))) as Hlt. { destruct (trunc_cell f0 Q1). lra. } apply INR_lt in Hlt.
      exists (trunc f1 - 1)%N. split; [lia|]. split. { rewrite Ei at 2. apply lt_INR. lia. } intros s e Hs He _. split; [lia|]. split; [lia|].
      rewrite Ex, Ei. split; apply le_INR; lia.
    - assert (trunc x < trunc f1)%N as Hlt. { assert (N.to_nat (trunc x) < N.to_nat (trunc f1))%nat; [|lia]. apply INR_lt. lra. }
      exists (trunc x). split; [done|]. split; [lra|]. intros s e Hs He _. split; [lia|]. split; [lia|]. split.
      + assert (N.to_nat s <= N.to_nat (trunc x))%nat as H by lia. apply le_INR in H. lra.
      + assert (N.to_nat (trunc x) + 1 <= N.to_nat e)%nat as H by lia. apply le_INR in H. rewrite plus_INR in H. change (INR 1) with 1 in H. lra.
    - exists (trunc x). split; [done|]. split. { destruct (Rlt_dec x f1); [lra|]. assert (x = f1) as -> by lra. lra. }
      intros s e Hs He Hc. assert (s < trunc f1)%N as Hlt. { destruct Hc as [Hc|Hc]; [lia|done]. }
      split; [done|]. split; [lia|]. split.
      + assert (N.to_nat s <= N.to_nat (trunc x))%nat as H by lia. apply le_INR in H. lra.
      + assert (N.to_nat (trunc x) + 1 <= N.to_nat e)%nat as H by lia. apply le_INR in H. rewrite plus_INR in H. change (INR 1) with 1 in H. lra. }
  destruct (Haxis _ _ _ _ o1 _ A1 B1 C1 D1 O1 (E1 o1)) as (i1 & L1 & M1 & K1). destruct (Haxis _ _ _ _ o2 _ A2 B2 C2 D2 O2 (E2 o2)) as (i2 & L2 & M2 & K2). destruct (Haxis _ _ _ _ o3 _ A3 B3 C3 D3 O3 (E3 o3)) as (i3 & L3 & M3 & K3). clear Haxis.
  set (y1 := index_pos (g_start G).1.1 (g_interval G).1.1 (sample_pos p.1.1 q.1.1 n.1.1 o1)) in *. set (y2 := index_pos (g_start G).1.2 (g_interval G).1.2 (sample_pos p.1.2 q.1.2 n.1.2 o2)) in *. set (y3 := index_pos (g_start G).2 (g_interval G).2 (sample_pos p.2 q.2 n.2 o3)) in *.
  destruct (Hcov i1 i2 i3 (conj L1 (conj L2 L3)) M1 M2 M3) as (m & Hm & Hs & He).
  pose proof (Hch m Hm) as (ty & path & id & s1 & s2 & s3 & m1 & m2 & m3 & ov & -> & Hfit & Hov & Hovw & Hpos & Hty). rewrite (meta_end ty path id s1 s2 s3 m1 m2 m3 ov Hfit) in He. cbn [cm_start mk_meta] in Hs.
  inversion_clear Hs as [|? ? ? ? S1 Hs']. inversion_clear Hs' as [|? ? ? ? S2 Hs'']. inversion_clear Hs'' as [|? ? ? ? S3 _].
  inversion_clear He as [|? ? ? ? Z1 He']. inversion_clear He' as [|? ? ? ? Z2 He'']. inversion_clear He'' as [|? ? ? ? Z3 _].
  destruct (Hcut _ s1 s2 s3 Hm eq_refl) as (T1 & T2 & T3).
  destruct (K1 s1 (s1 + m1)%N S1 Z1 T1) as (P1 & P2 & P3). destruct (K2 s2 (s2 + m2)%N S2 Z2 T2) as (P4 & P5 & P6). destruct (K3 s3 (s3 + m3)%N S3 Z3 T3) as (P7 & P8 & P9).
  assert (in_query [trunc (index_pos (g_start G).1.1 (g_interval G).1.1 p.1.1); trunc (index_pos (g_start G).1.2 (g_interval G).1.2 p.1.2); trunc (index_pos (g_start G).2 (g_interval G).2 p.2)]
     [trunc (index_pos (g_start G).1.1 (g_interval G).1.1 q.1.1); trunc (index_pos (g_start G).1.2 (g_interval G).1.2 q.1.2); trunc (index_pos (g_start G).2 (g_interval G).2 q.2)] (mk_meta ty path id [s1; s2; s3] [m1; m2; m3] ov)) as Hq.
  { split; [cbn [cm_start mk_meta]|rewrite (meta_end ty path id s1 s2 s3 m1 m2 m3 ov Hfit)]; repeat constructor; done. }
  assert (within (mk_meta ty path id [s1; s2; s3] [m1; m2; m3] ov) y1 y2 y3) as Hw by (apply (within_meta ty path id s1 s2 s3 m1 m2 m3 ov _ _ _ Hfit); done).
  destruct Hty as [[-> _]|[-> Hnull]].
  - apply RA. eexists. split; [exact Hm|]. split; [exact Hq|]. split; [done|exact Hw].
  - (* the field is zero in an all-null chunk; another chunk may give the sample, or none *)
    assert (grid_field K g y1 y2 y3 = (0, 0)) as Hz.
    { assert (1 <= k_support K)%nat as Hsup by (destruct HK as [-> | ->]; simpl; lia).
      assert (forall x (s w : N) j, INR (N.to_nat s) <= x <= INR (N.to_nat (s + w)) -> (j < 2 * k_support K)%nat ->
        (Z.of_N s - Z.of_N ov <= Int_part x - (Z.of_nat (k_support K) - 1) + Z.of_nat j < Z.of_N s + Z.of_N w + Z.of_N ov)%Z /\ (1 - Z.of_nat (k_support K) <= Int_part x - (Z.of_nat (k_support K) - 1) + Z.of_nat j)%Z) as Hnear.
      { intros x s w j [Y1 Y2] Hj. assert (0 <= x) as Hx by (pose proof (pos_INR (N.to_nat s)); lra). destruct (cell_exists x Hx) as [c Hc]. rewrite (Int_part_cell _ _ Hc). destruct Hc as [Hc1 Hc2].
        assert (N.to_nat s < S c)%nat by (apply INR_lt; rewrite S_INR; lra). assert (c <= N.to_nat (s + w))%nat by (apply INR_le; lra). lia. }
      unfold grid_field. assert (forall k f, (forall j, (j < k)%nat -> f j = 0) -> sum k f = 0) as Hsum0.
      { induction k as [|k IH]; intros f Hf; [done|]. rewrite sum_S, IH, Hf by (done || (intros; apply Hf; lia) || lia). lra. }
      cbv zeta in Hnull. f_equal; apply Hsum0; intros j1 Hj1; apply Hsum0; intros j2 Hj2; apply Hsum0; intros j3 Hj3; (rewrite Hnull; [lra|eapply Hnear; eassumption..|]); unfold needed; cbv zeta; (split; [|split]); eapply Hnear; eassumption. }
    rewrite Hz in *. unfold pr in *. cbn [fst snd] in *.
    assert (forall m, m ∈ cs -> within m y1 y2 y3 \/ ~ within m y1 y2 y3) as Hdec.
    { intros m0 Hm0. destruct (Hch m0 Hm0) as (ty0 & path0 & id0 & a1 & a2 & a3 & c1 & c2 & c3 & ov0 & -> & Hfit0 & _). rewrite (within_meta ty0 path0 id0 a1 a2 a3 c1 c2 c3 ov0 _ _ _ Hfit0). apply Rbox_dec. }
    match type of RB with ~ ?P -> _ => assert (P \/ ~ P) as [HP|HP] end; [|by apply RA|by apply RB].
    clear - Hdec. induction cs as [|m0 l IH].
    + right. intros (m' & H & _). by apply elem_of_nil in H.
    + destruct IH as [(m' & H1 & H2)|Hno]; [intros; apply Hdec; set_solver|left; exists m'; split; [set_solver|done]|].
      assert (forall a b, Forall2 N.lt a b \/ ~ Forall2 N.lt a b) as Hd2 by (intros a b; destruct (decide (Forall2 N.lt a b)); auto).
      destruct (Hdec m0) as [Hw|Hw]; [set_solver| |].
      * destruct (decide (cm_type m0 = specified)) as [Ht|Ht].
        -- unfold in_query. match goal with |- context [Forall2 N.lt (cm_start _) ?e] => destruct (Hd2 (cm_start m0) e) as [Q1|Q1] end.
           ++ match goal with |- context [Forall2 N.lt ?s (cm_end _)] => destruct (Hd2 s (cm_end m0)) as [Q2|Q2] end.
              ** left. exists m0. split; [set_solver|done].
              ** right. intros (m' & [->|H]%elem_of_cons & [U1 U2] & V & W'); [done|]. apply Hno. exists m'. done.
           ++ right. intros (m' & [->|H]%elem_of_cons & [U1 U2] & V & W'); [done|]. apply Hno. exists m'. done.
        -- right. intros (m' & [->|H]%elem_of_cons & U & V & W'); [done|]. apply Hno. exists m'. done.
      * right. intros (m' & [->|H]%elem_of_cons & U & V & W'); [done|]. apply Hno. exists m'. done.
Qed.
End fill.

(** A constant field is interpolated exactly. *)
Lemma grid_field_const K u r z t : K = linear \/ K = keys -> grid_field K (fun _ _ _ => u) r z t = (u 0%nat, u 1%nat).
Proof.
  intros HK. assert (forall x, 0 <= frac_part x < 1) as Hf by (intros x; destruct (base_fp x); lra).
  destruct (kern_total K (frac_part r) HK (Hf r)) as (w1 & E1 & S1 & L1). destruct (kern_total K (frac_part z) HK (Hf z)) as (w2 & E2 & S2 & L2). destruct (kern_total K (frac_part t) HK (Hf t)) as (w3 & E3 & S3 & L3).
  unfold grid_field, kernel_weight. rewrite E1, E2, E3. cbn [default]. unfold Datatypes.id.
  assert (forall c, sum (2 * k_support K) (fun j1 => sum (2 * k_support K) (fun j2 => sum (2 * k_support K) (fun j3 => nth j1 w1 0 * nth j2 w2 0 * nth j3 w3 0 * u c))) = u c) as H.
  { intros c. set (ks := (2 * k_support K)%nat) in *.
    transitivity (sum ks (fun j1 => nth j1 w1 0 * (sum ks (fun j2 => nth j2 w2 0 * (sum ks (fun j3 => nth j3 w3 0 * u c)))))).
    - apply sum_ext. intros j1 Hj1. rewrite Rmult_comm, sum_mul. apply sum_ext. intros j2 Hj2.
      rewrite (Rmult_comm (nth j2 w2 0)), Rmult_assoc, sum_mul. apply sum_ext. intros j3 Hj3. ring.
    - rewrite !sum_const_w by done. rewrite S1, S2, S3. ring. }
  by rewrite !H.
Qed.

(** A concrete Green's function: the field is one everywhere, stored in two chunks that meet at the time index 5. *)
Definition ex_data : ndarr R := anew 2 1 [9; 9; 9]%nat.
Definition ex_m (s : N) : chunk_meta := mk_meta specified [] s [0; 0; s]%N [5; 5; 5]%N 2.
Definition ex_cs : list chunk_meta := [ex_m 0; ex_m 5].
Definition ex_g : Z -> Z -> Z -> nat -> R := fun _ _ _ _ => 1.
Definition ex_G : green := {| g_start := (0, 0, 0); g_interval := (1, 1, 1); g_chunk := fun _ => None; g_data := fun _ => Some ex_data |}.
Definition ex_search (s e : list N) : list chunk_meta := base.filter (fun m => Forall2 N.lt (cm_start m) e /\ Forall2 N.lt s (cm_end m)) ex_cs.
Definition ex_arr : ndarr R := anew 2 7 [1; 1; 1]%nat.
Definition ex_n : nat * nat * nat := (2, 3, 4)%nat.
Lemma ex_held s : s = 0%N \/ s = 5%N -> held ex_G linear ex_g (ex_m s).
Proof.
  intros Hs. exists specified, [], s, 0%N, 0%N, s, 5%N, 5%N, 5%N, 2%N. split; [done|]. split; [split; repeat constructor; destruct Hs as [-> | ->]; vm_compute; reflexivity|]. split; [simpl; lia|]. split; [done|]. split; [lia|].
  left. split; [done|]. exists ex_data. split; [done|]. split; [by apply api_new|]. split; [done|]. exists 0%N, 0%N, s. split; [done|]. intros i1 i2 i3 ? ? ? Hin _. subst j1 j2 j3.
  pose proof (anew_wf 2 1 [9; 9; 9]%nat ltac:(done)) as Wd. fold ex_data in Wd. pose proof (wf_owned_wf _ _ Wd) as [_ Hb]. specialize (Hb _ Hin). unfold aread. rewrite (proj2 (has_index_true _ _)) by done. unfold block.
  rewrite (proj2 (Nat.leb_le _ _)) by lia. f_equal. clear - Hb. revert Hb. change (a_data ex_data) with (replicate (2 * (9 * (9 * (9 * 1)))) 1). generalize (flat_ind (a_strides ex_data) (a_off ex_data) [i1; i2; i3]) as x. generalize (2 * (9 * (9 * (9 * 1))))%nat as len. intros len x Hb. rewrite replicate_length in Hb.
  rewrite drop_replicate, take_replicate, Nat.min_l by lia. done.
Qed.
Lemma ex_ok qt : 0 < qt <= 9 -> ok_fill ex_G (4, 4, 9) ex_cs ex_search linear ex_g (0, 0, 0) (3, 3, qt) ex_n.
Proof.
  intros Hq. split; cbn [ex_G g_start g_interval ex_n fst snd]; [by left|lra|lra|lia| |].
  - intros m Hm. unfold ex_cs in Hm. rewrite !elem_of_cons in Hm. destruct Hm as [->|[->|Hm]]; [apply ex_held; auto..|by apply elem_of_nil in Hm].
  - intros m. unfold ex_search, in_query. rewrite elem_of_list_filter. tauto.
Qed.
Lemma trunc_is x (i : nat) : INR i <= x < INR i + 1 -> trunc x = N.of_nat i.
Proof. intros H. unfold trunc. rewrite (Int_part_cell x i H). lia. Qed.
Lemma ex_covered qt : 0 < qt <= 9 -> range_covered ex_G ex_cs (0, 0, 0) (3, 3, qt).
Proof.
  intros Hq i1 i2 i3 _. unfold at_r, at_z, at_t, index_pos. cbn [ex_G g_start g_interval fst snd]. intros H1 H2 H3.
  assert (N.to_nat i1 < 3)%nat as K1 by (apply INR_lt; simpl (INR 3); lra). assert (N.to_nat i2 < 3)%nat as K2 by (apply INR_lt; simpl (INR 3); lra). assert (N.to_nat i3 < 9)%nat as K3 by (apply INR_lt; simpl (INR 9); lra).
  destruct (decide (i3 < 5)%N).
  - exists (ex_m 0). split; [by left|]. split; [repeat constructor; lia|]. change (cm_end (ex_m 0)) with [5; 5; 5]%N. repeat constructor; lia.
  - exists (ex_m 5). split; [right; by left|]. split; [repeat constructor; lia|]. change (cm_end (ex_m 5)) with [5; 5; 10]%N. repeat constructor; lia.
Qed.

(** The hypotheses of both theorems are met by a range that ends at 6.5, behind the boundary between the chunks. *)
Example C61_hypotheses_nonvacuous :
  ok_fill ex_G (4, 4, 9) ex_cs ex_search linear ex_g (0, 0, 0) (3, 3, 13 / 2) ex_n /\ a_owns ex_arr = true /\
  range_covered ex_G ex_cs (0, 0, 0) (3, 3, 13 / 2) /\ end_not_cut ex_G ex_cs (3, 3, 13 / 2).
Proof.
  split; [apply ex_ok; lra|]. split; [done|]. split; [apply ex_covered; lra|].
  assert (trunc ((3 - 0) / 1) = 3%N) as E1 by (apply (trunc_is _ 3); simpl; lra). assert (trunc ((13 / 2 - 0) / 1) = 6%N) as E3 by (apply (trunc_is _ 6); simpl; lra).
  intros m s1 s2 s3 Hm Es. unfold at_r, at_z, at_t, index_pos. cbn [ex_G g_start g_interval fst snd]. rewrite E1, E3.
  unfold ex_cs in Hm. rewrite !elem_of_cons in Hm. destruct Hm as [->|[->|Hm]]; [injection Es as <- <- <-; split_and!; left; lia..|by apply elem_of_nil in Hm].
Qed.

(** If the range ends inside the first cell of a chunk, the samples there are silently zero: the range query takes the truncated end index as an
    exclusive bound.  All hypotheses of C61_complete_partial but [end_not_cut] hold, the field is one everywhere, and the last sample is zero. *)
Theorem C61_end_cut_refuted : exists G m_end cs search K g p q n junk arr arr' o1 o2 o3,
  ok_fill G m_end cs search K g p q n /\ a_owns arr = true /\ range_covered G cs p q /\ (forall i1 i2 i3 c, g i1 i2 i3 c = 1) /\
  fill_array G m_end search K junk p q n arr = Some arr' /\ (o1 < n.1.1 /\ o2 < n.1.2 /\ o3 < n.2)%nat /\
  grid_field K g (sample_r G p q n o1) (sample_z G p q n o2) (sample_t G p q n o3) = (1, 1) /\ aread 2 arr' [o1; o2; o3] = Some [0; 0].
Proof.
  assert (0 < 11 / 2 <= 9) as Hq by lra. destruct (C61_fill_partial _ _ _ _ _ _ _ _ _ 0 ex_arr (ex_ok _ Hq) eq_refl) as (arr' & E & _ & HR).
  exists ex_G, (4, 4, 9), ex_cs, ex_search, linear, ex_g, (0, 0, 0), (3, 3, 11 / 2), ex_n, 0, ex_arr, arr', 1%nat, 2%nat, 3%nat.
  split; [by apply ex_ok|]. split; [done|]. split; [by apply ex_covered|]. split; [done|]. split; [exact E|]. split; [simpl; lia|].
  split; [apply (grid_field_const linear (fun _ => 1)); by left|]. destruct (HR 1 2 3)%nat as [_ HB]; [simpl; lia|]. apply HB. clear HR HB E.
  intros (m & Hm & [Hq1 _] & _ & Hw). revert Hq1 Hw. unfold sample_t, last_ind, at_r, at_z, at_t, index_pos, sample_pos. cbn [ex_G g_start g_interval fst snd ex_n].
  assert (trunc ((11 / 2 - 0) / 1) = 5%N) as E3 by (apply (trunc_is _ 5); simpl; lra). rewrite E3. intros Hq1 (s1 & s2 & s3 & e1 & e2 & e3 & Es & Ee & _ & _ & W1 & W2).
  unfold ex_cs in Hm. rewrite !elem_of_cons in Hm. destruct Hm as [->|[->|Hm]]; [| |by apply elem_of_nil in Hm].
  - change (cm_end (ex_m 0)) with [5; 5; 5]%N in Ee. injection Ee as <- <- <-. change (N.to_nat 5) with 5%nat in W2. simpl (INR _) in W2. lra.
  - change (cm_start (ex_m 5)) with [0; 0; 5]%N in Hq1. inversion_clear Hq1 as [|? ? ? ? _ Q]. inversion_clear Q as [|? ? ? ? _ Q']. inversion_clear Q' as [|? ? ? ? H _]. lia.
Qed.
Print Assumptions C61_fill_partial.
Print Assumptions C61_complete_partial.
Print Assumptions C61_end_cut_refuted.
