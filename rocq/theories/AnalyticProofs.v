(** Proofs about the analytic calculation. *)
From stdpp Require Import base list list_numbers numbers option gmap countable sets.
From Coq Require Import Reals NArith ZArith Lia Lra.
From Verif Require Import IndexSpec LoopsModel LoopsProofs NDArrayModel NDArrayProofs NDArrayOps NDArrayProps StreamerModel StreamerProps CodecModel
  BBoxModel BBoxProps DownsampleModel DownsampleProps RTreeModel RTreeInsert RTreeProps ChunkMetaModel ChunkMetaProps ChunkCacheModel ChunkCacheSpec
  LibraryModel LibrarySpec LibraryProofs LibraryProofs2 LibraryProofs3 LibraryProofs4 LibraryProofs5 LibraryProofs6 LibraryProofs7 LibraryProps
  BoundaryModel BoundaryProps RebuildModel RebuildSpec RebuildProofs RebuildProofs2 RebuildProofs3 RebuildProofs4 RebuildProps CalculateSpec CalculateProofs
  SignalModel SignalProps AnalyticModel AnalyticSpec.
From Verif Require Import IndexSpec LibrarySpec.

Lemma fold_writes vd (G : list nat -> list N) inds : (forall i, length (G i) = vd /\ Forall (fun b => b < 2 ^ 32)%N (G i)) -> forall buf, float_array vd buf -> (forall i, i ∈ inds -> in_shape (a_shape buf) i) ->
  exists b, foldM (fun b i => awrite vd b i (G i)) buf inds = Some b /\ float_array vd b /\ a_shape b = a_shape buf /\
    (forall x, in_shape (a_shape buf) x -> aread vd b x = if decide (x ∈ inds) then Some (G x) else aread vd buf x).
Proof.
  intros HG. induction inds as [|i inds IH]; intros buf Hf Hin; cbn [foldM].
  - exists buf. split; [done|]. split; [done|]. split; [done|]. intros x Hx. rewrite decide_False; [done|]. apply not_elem_of_nil.
  - destruct (HG i) as [G1 G2]. destruct (write_float vd buf i (G i) Hf (Hin i ltac:(left)) G1 G2) as (b1 & E1 & F1 & S1 & R1 & O1). rewrite E1. cbn [mbind option_bind].
    destruct (IH b1 F1) as (b & E & F2 & S2 & R2). { intros j Hj. rewrite S1. apply Hin. by right. }
    exists b. split; [done|]. split; [done|]. split; [congruence|]. intros x Hx. rewrite R2 by (rewrite S1; done).
    destruct (decide (x ∈ inds)) as [Hd|Hd]; [rewrite decide_True by (by right); done|].
    destruct (decide (x = i)) as [->|Hne]; [rewrite decide_True by left; done|]. rewrite decide_False by (by apply not_elem_of_cons). by apply O1.
Qed.

Section grid.
Context (vd : nat) (junk : N) (L : lib) (HL : lib_ok L) (Hjunk : (junk < 2 ^ 32)%N) (F : R -> R -> R -> list N)
  (HF : forall r z t, length (F r z t) = vd /\ Forall (fun b => b < 2 ^ 32)%N (F r z t)) (ar az at_ sr sz st : R).
(** The value for an index. *)
Definition grid_val (x : list nat) : list N :=
  match x with [ir; iz; it] => F (ar + INR ir * sr) (az + INR iz * sz) (at_ + INR it * st) | _ => replicate vd 0%N end.
Lemma grid_val_ok x : length (grid_val x) = vd /\ Forall (fun b => b < 2 ^ 32)%N (grid_val x).
Proof using HF.
  assert (length (replicate vd 0%N) = vd /\ Forall (fun b => b < 2 ^ 32)%N (replicate vd 0%N)) as H0 by (split; [apply replicate_length|by apply Forall_replicate]).
  destruct x as [|? [|? [|? [|? ?]]]]; cbn [grid_val]; auto.
Qed.
Lemma evaluate_ok cs (buf : ndarr N) : length cs = 3%nat -> float_array vd buf -> length (a_shape buf) = 3%nat ->
  exists c b, chunk_coords (ar, az, at_) (sr, sz, st) cs = Some c /\ evaluate_chunk vd F c (sr, sz, st) buf = Some b /\ float_array vd b /\ a_shape b = a_shape buf /\
    forall x, in_shape (a_shape buf) x -> aread vd b x = Some (grid_val (vadd cs x)).
Proof using HF.
  clear Hjunk HL. intros Lc Hf Ls. destruct cs as [|c1 [|c2 [|c3 [|? ?]]]]; try discriminate Lc. eexists. unfold evaluate_chunk. rewrite elem_loop_spec by (rewrite ?replicate_length; lia). cbn [mbind option_bind chunk_coords].
  set (inds := box_elems _ _). 
  assert (forall x, x ∈ inds <-> in_shape (a_shape buf) x) as Hinds by (intros x; apply elem_of_box_elems).
  assert (forall i, i ∈ inds -> length i = 3%nat) as Hlen.
  { intros i Hi. apply Hinds in Hi. unfold in_shape in Hi. apply in_box_at in Hi as (_ & Hi & _). lia. }
  destruct (fold_writes vd (fun x => grid_val (vadd [c1; c2; c3] x)) inds (fun i => grid_val_ok _) buf Hf (fun i Hi => proj1 (Hinds i) Hi)) as (b & E & Hb & Sb & Rb).
  exists b. split; [done|]. split; [|split; [done|split; [done|]]].
  - rewrite <- E. clear E Rb Hb Sb. clearbody inds. clear Hinds Hf Ls. revert buf. induction inds as [|i inds IH]; intros buf; cbn [foldM]; [done|].
    assert (evaluate_at vd F ((ar + INR c1 * sr)%R, (az + INR c2 * sz)%R, (at_ + INR c3 * st)%R) (sr, sz, st) buf i = awrite vd buf i (grid_val (vadd [c1; c2; c3] i))) as Ei.
    { pose proof (Hlen i ltac:(left)) as Li. destruct i as [|i1 [|i2 [|i3 [|? ?]]]]; try discriminate Li. unfold evaluate_at, vadd. cbn [zip_with grid_val]. rewrite !plus_INR. f_equal. f_equal; ring. }
    rewrite Ei. destruct (awrite vd buf i _); [|done]. cbn [mbind option_bind]. apply IH. intros j Hj. apply Hlen. by right.
  - intros x Hx. rewrite Rb by done. rewrite decide_True; [done|]. by apply Hinds.
Qed.

(** * One chunk *)
Definition good (c : chunk) (cc : list nat * list nat) : Prop :=
  c_start c = vof_nat cc.1 /\ c_end c = vof_nat cc.2 /\ c_ov c = 0%N /\ c_null c = false /\ forall x, in_box cc.1 cc.2 x -> value c (vof_nat x) = grid_val x.
Context (ends : list N) (m : N) (uuids : nat -> bytes).
Notation piece := (piece 3 [0; 0; 0]%N ends (replicate 3 m)).
Context (Lends : length ends = 3%nat) (Hends : forall i, (i < 3)%nat -> (ends !!! i < 2 ^ 32)%N) (Hvol : (m ^ 3 * N.of_nat (vd + 1) < 2 ^ 32)%N).

Lemma one_chunk l S buf cs ce uuid : session vd 3 junk L l S -> float_array vd buf -> piece (cs, ce) -> ls_cs S = rebuild_cs 3 -> ls_reopened S = false -> (ls_handed S < 2 ^ 32)%N ->
  ok_name (ls_chunks S) uuid -> Forall (fun c => exists cc, good c cc /\ forall x, in_box cs ce x -> in_box cc.1 cc.2 x -> False) (ls_chunks S) ->
  exists b l' c, fill_and_register vd junk L F (ar, az, at_) (sr, sz, st) (buf, l) (uuid, (cs, ce)) = Done (b, l') /\ float_array vd b /\
    session vd 3 junk L l' (LState (ls_chunks S ++ [c]) (ls_handed S + 1) false (rebuild_cs 3)) /\ good c (cs, ce) /\ c_file c = uuid.
Proof using HL Hjunk HF Lends Hends Hvol.
  intros Hl Hf (P1 & P2 & P3) Hcs Hre Hh Hn Hap. cbn [fst snd] in *.
  assert (length (zip_with Nat.sub ce cs) = 3%nat) as Lsh by (rewrite zip_with_length; lia).
  destruct (resize_float vd junk (zip_with Nat.sub ce cs) buf Hjunk) as (b1 & E1 & F1 & S1); [intros E; rewrite E in Lsh; discriminate|done|].
  destruct (evaluate_ok cs b1 P1 F1 ltac:(by rewrite S1)) as (c0 & b & E2 & E3 & Fb & Sb & Vb).
  assert (a_shape b = zip_with Nat.sub ce cs) as Sb' by congruence. clear Sb.
  assert (vwadd (vof_nat cs) (vof_nat (a_shape b)) = vof_nat ce) as Ee.
  { rewrite Sb'. unfold vwadd, vof_nat. apply eq_at. rewrite zip_with_length, !fmap_length, zip_with_length. split; [lia|]. intros i Hi. rewrite zip_at by (rewrite ?fmap_length, ?zip_with_length; lia).
    rewrite !fmap_at by (rewrite ?zip_with_length; lia). rewrite zip_at by lia. destruct (P3 i ltac:(lia)) as (A1 & A2 & A3 & A4). specialize (Hends i ltac:(lia)). unfold wadd. rewrite N.mod_small; [lia|]. assert (2 ^ 32 <= W)%N by done. lia. }
  assert (forall i, (i < 3)%nat -> a_shape b !!! i = (ce !!! i - cs !!! i)%nat) as Hsh by (intros i Hi; rewrite Sb'; apply zip_at; lia).
  assert (ok_register vd 3 S b (vof_nat cs) (vof_nat ce) 0 uuid) as Hreg.
  { split.
    - unfold vof_nat. by rewrite fmap_length.
    - apply nonempty_at. unfold vof_nat. rewrite !fmap_length. split; [lia|]. intros i Hi. rewrite !fmap_at by lia. destruct (P3 i ltac:(lia)) as (A1 & A2 & A3 & A4). specialize (Hends i ltac:(lia)).
      assert (2 ^ 32 <= 2 ^ 64)%N by done. lia.
    - apply F2_at. unfold vof_nat. rewrite Sb', zip_with_length, !zip_with_length, !fmap_length. split; [lia|]. intros i Hi. rewrite !zip_at by (rewrite ?fmap_length; lia). cbn [fst snd]. rewrite !fmap_at by lia. destruct (P3 i ltac:(lia)) as (A1 & A2 & A3 & A4). lia.
    - apply F1_at. unfold vof_nat. intros i Hi. rewrite fmap_length in Hi. rewrite fmap_at by lia. destruct (P3 i ltac:(lia)) as (A1 & A2 & A3 & A4). specialize (Hends i ltac:(lia)). assert (2 ^ 32 <= 2 ^ 64)%N by done. lia.
    - done.
    - rewrite Hcs. assert (N.of_nat (volume (a_shape b)) <= m ^ 3)%N as Hv3.
      { pose proof (Hsh 0%nat ltac:(lia)) as B0. pose proof (Hsh 1%nat ltac:(lia)) as B1. pose proof (Hsh 2%nat ltac:(lia)) as B2.
        destruct (P3 0%nat ltac:(lia)) as (_ & _ & _ & A0). destruct (P3 1%nat ltac:(lia)) as (_ & _ & _ & A1). destruct (P3 2%nat ltac:(lia)) as (_ & _ & _ & A2). rewrite <- B0 in A0. rewrite <- B1 in A1. rewrite <- B2 in A2. clear B0 B1 B2.
        rewrite lookup_total_replicate_2 in A0, A1, A2 by lia. rewrite <- Sb' in Lsh. destruct (a_shape b) as [|x0 [|x1 [|x2 [|? ?]]]]; try discriminate Lsh.
        change (N.of_nat x0 <= m)%N in A0. change (N.of_nat x1 <= m)%N in A1. change (N.of_nat x2 <= m)%N in A2. cbn [volume]. rewrite !Nat2N.inj_mul. replace (m ^ 3)%N with (m * (m * (m * 1)))%N by (change 3%N with (N.succ (N.succ (N.succ 0))); rewrite !N.pow_succ_r', N.pow_0_r; ring).
        repeat apply N.mul_le_mono; done. }
      assert (N.of_nat (volume (a_shape b)) * N.of_nat (vd + 1) < 2 ^ 32)%N as Hv2. { eapply N.le_lt_trans; [|exact Hvol]. by apply N.mul_le_mono_r. }
      split; [|split].
      + apply F1_at. intros i Hi. rewrite Sb', zip_with_length in Hi. rewrite Hsh by lia. destruct (P3 i ltac:(lia)) as (A1 & A2 & A3 & A4). specialize (Hends i ltac:(lia)). assert (2 ^ 32 <= 2 ^ 64)%N by done. lia.
      + rewrite Nat2N.inj_mul. eapply N.lt_trans; [exact Hv2|done].
      + intros _. assert (volume (zip_with Nat.min (rebuild_cs 3) (a_shape b)) <= volume (a_shape b))%nat as Hm.
        { apply volume_mono. apply F2_at. pose proof (rebuild_cs_ok 3 ltac:(lia)) as (Lc & _). assert (length (a_shape b) = 3%nat) as Lb by congruence. rewrite zip_with_length. split; [lia|]. intros i Hi. rewrite zip_at by lia. lia. }
        apply inj_le in Hm. eapply N.le_lt_trans; [|exact Hv2]. set (V2 := volume (a_shape b)) in *. clearbody V2. set (V3' := volume (zip_with _ _ _)) in *. clearbody V3'. clear - Hm. nia.
    - eapply list.Forall_impl; [exact Hap|]. intros c (cc & (G1 & G2 & _) & Hno). cbn beta. rewrite G1, G2. intros ind I1 I2. apply (Hno (vto_nat ind)).
      + apply inbox_at in I1 as (J1 & J2 & J3). unfold vof_nat in J1, J2, J3. rewrite fmap_length in J1, J2, J3. apply in_box_at. unfold vto_nat. rewrite fmap_length. split; [lia|]. split; [lia|].
        intros i Hi. specialize (J3 i ltac:(lia)). rewrite !fmap_at in J3 by lia. rewrite fmap_at by lia. lia.
      + apply inbox_at in I2 as (J1 & J2 & J3). unfold vof_nat in J1, J2, J3. rewrite fmap_length in J1, J2, J3. rewrite fmap_length in J2. apply in_box_at. unfold vto_nat. rewrite fmap_length. split; [lia|]. split; [lia|].
        intros i Hi. specialize (J3 i ltac:(lia)). rewrite !fmap_at in J3 by lia. rewrite fmap_at by lia. lia.
    - done.
    - done. }
  assert (is_null_chunk vd b false false) as Hnull by (split; [discriminate|intros [H _]; discriminate]).
  destruct (register_lib_ok vd 3 junk L HL l S b _ _ _ false false uuid (session_inv vd 3 junk L HL l S Hl) Hreg Hnull) as (l' & Hr & _).
  exists b, l'. eexists. split; [|split; [exact Fb|split; [|split]]].
  - unfold fill_and_register. rewrite E2. cbn [of_opt mbind res_bind]. rewrite E1. cbn [of_opt mbind res_bind]. rewrite E3. cbn [of_opt mbind res_bind]. unfold darr_register. rewrite Ee, Hr. reflexivity.
  - pose proof (ss_register _ _ _ _ _ _ _ _ _ _ _ false _ _ Hl Hreg Hnull Hr) as Hs. unfold registered in Hs. rewrite Hre, Hcs in Hs. exact Hs.
  - split; [done|]. split; [done|]. split; [done|]. split; [done|]. cbn [fst snd]. intros x Hx. unfold value, position. cbn [c_val c_start c_ov content_of k_at]. pose proof Hx as (X1 & X2 & X3)%in_box_at.
    assert (zip_with (fun i s => N.to_nat (i + 0 - s)) (vof_nat x) (vof_nat cs) = vsub x cs) as ->.
    { unfold vof_nat, vsub. apply eq_at. rewrite !zip_with_length, !fmap_length. split; [done|]. intros i Hi. rewrite !zip_at by (rewrite ?fmap_length; lia). rewrite !fmap_at by lia. lia. }
    rewrite Vb.
    + change (grid_val (vadd cs (vsub x cs)) = grid_val x). f_equal. unfold vadd, vsub. apply eq_at. rewrite !zip_with_length. split; [lia|]. intros i Hi. rewrite !zip_at by (rewrite ?zip_with_length; lia). specialize (X3 i ltac:(lia)). lia.
    + rewrite S1. unfold in_shape. apply in_box_at. unfold vsub. rewrite replicate_length, !zip_with_length. split; [lia|]. split; [lia|]. intros i Hi. rewrite lookup_total_replicate_2 by lia. rewrite !zip_at by lia. specialize (X3 i ltac:(lia)). lia.
  - done.
Qed.

(** * All chunks *)
Context (Hnames : forall i, (N.of_nat i < chunk_count [0; 0; 0] ends (replicate 3 m))%N -> uuids i <> [] /\ (N.of_nat (length (uuids i)) < 2 ^ 64)%N /\ Forall (fun b => b < 256)%N (uuids i) /\
  forall j, (N.of_nat j < chunk_count [0; 0; 0] ends (replicate 3 m))%N -> uuids i = uuids j -> i = j).
Context (Hids : (chunk_count [0; 0; 0] ends (replicate 3 m) <= 2 ^ 32)%N).
Lemma all_chunks chunks : Forall piece chunks -> disjoint_boxes chunks -> N.of_nat (length chunks) = chunk_count [0; 0; 0]%N ends (replicate 3 m) -> forall rest done_ buf l Tc,
  chunks = done_ ++ rest -> float_array vd buf -> session vd 3 junk L l (LState Tc (N.of_nat (length done_)) false (rebuild_cs 3)) -> Forall2 good Tc done_ ->
  (forall c, c ∈ Tc -> exists j, (j < length done_)%nat /\ c_file c = uuids j) ->
  exists b l' Tc', rfold (fill_and_register vd junk L F (ar, az, at_) (sr, sz, st)) (buf, l) (imap (fun i c => (uuids (length done_ + i)%nat, c)) rest) = Done (b, l') /\
    session vd 3 junk L l' (LState Tc' (N.of_nat (length chunks)) false (rebuild_cs 3)) /\ Forall2 good Tc' chunks.
Proof using HL Hjunk HF Lends Hends Hvol Hnames Hids.
  intros Hp Hdis Hcount. induction rest as [|[cs ce] rest IH]; intros done_ buf l Tc Hall Hbuf Hl Hgood Hfiles.
  - rewrite app_nil_r in Hall. subst chunks. exists buf, l, Tc. done.
  - assert (piece (cs, ce)) as Hpc. { eapply list.Forall_forall; [exact Hp|]. rewrite Hall. apply elem_of_app. right. left. }
    assert (chunks !! length done_ = Some (cs, ce)) as Hlk. { rewrite Hall, lookup_app_r, Nat.sub_diag by lia. done. }
    pose proof (lookup_lt_Some _ _ _ Hlk) as Hlt.
    destruct (one_chunk l _ buf cs ce (uuids (length done_ + 0)%nat) Hl Hbuf Hpc) as (b & l' & c' & E & Hb & Hl' & Hg' & Hf'); cbn [ls_cs ls_reopened ls_handed ls_chunks] in *; [done|done|lia|..].
    + destruct (Hnames (length done_ + 0)%nat ltac:(lia)) as (N1 & N2 & N3 & Hinj). split; [done|]. split; [done|]. split; [done|].
      apply list.Forall_forall. intros c Hc Ef. destruct (Hfiles c Hc) as (j & Hj' & Ej). rewrite Ej in Ef. symmetry in Ef. apply Hinj in Ef; lia.
    + apply list.Forall_forall. intros c Hc. apply elem_of_list_lookup in Hc as [k Hk]. destruct (Forall2_lookup_l _ _ _ _ _ Hgood Hk) as (cc & Hcc & Hg). exists cc. split; [done|].
      assert (chunks !! k = Some cc) as Hk2. { rewrite Hall. by apply lookup_app_l_Some. }
      intros x Hx1 Hx2. pose proof (Hdis _ _ _ _ x Hlk Hk2 Hx1 Hx2) as Ek. pose proof (lookup_lt_Some _ _ _ Hcc). lia.
    + destruct (IH (done_ ++ [(cs, ce)]) b l' (Tc ++ [c'])) as (b' & l2 & Tc' & E' & R1 & R2).
      * by rewrite <- app_assoc.
      * done.
      * rewrite app_length. cbn [length]. rewrite Nat2N.inj_add. exact Hl'.
      * apply Forall2_app; [done|]. by constructor.
      * intros c. rewrite app_length. cbn [length]. rewrite elem_of_app, elem_of_list_singleton. intros [Hc| ->].
        -- destruct (Hfiles c Hc) as (j & Hj' & Ej). exists j. split; [lia|done].
        -- exists (length done_ + 0)%nat. split; [lia|done].
      * exists b', l2, Tc'. split; [|done]. cbn [imap rfold]. rewrite E. cbn [mbind res_bind]. rewrite <- E'. f_equal. apply imap_ext. intros i x _. cbn. rewrite app_length. cbn [length]. do 2 f_equal. lia.
Qed.
End grid.

(** * Steps *)
Lemma number_pts_fit a b d n : steps_fit a b d n -> number_pts a b d = Some n /\ axis_step a b n = Some ((b - a) / INR n)%R /\ (0 < INR n)%R.
Proof.
  intros (H1 & H2 & H3 & H4). assert (0 < INR n)%R as Hn by (by apply lt_0_INR). unfold number_pts, axis_step.
  destruct (Req_EM_T d 0) as [E|_]; [lra|]. destruct (Req_EM_T (INR n) 0) as [E|_]; [lra|]. split; [|done].
  apply to_size_cell. split.
  - apply Rmult_le_reg_r with d; [done|]. unfold Rdiv. rewrite Rmult_assoc, Rinv_l by lra. lra.
  - apply Rmult_lt_reg_r with d; [done|]. unfold Rdiv. rewrite Rmult_assoc, Rinv_l by lra. rewrite plus_INR in H4. change (INR 1) with 1%R in H4. lra.
Qed.
