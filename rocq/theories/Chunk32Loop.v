(** C76: the contributions of one integration point to the signal. *)
From stdpp Require Import base list list_numbers numbers option.
From Coq Require Import Reals ZArith Bool Lra Lia.
From Flocq Require Import Core IEEE754.BinarySingleNaN.
From Verif Require Import NDArrayModel NDArrayProps BBoxModel ChunkMetaModel ChunkMetaProps InterpModel SignalModel AntennaModel AntennaSpec AntennaProps DiscreteModel DiscreteSpec DiscreteProps.
From Verif Require Import Interp32Model Interp32Spec Interp32Weights Interp32Proofs Interp32Props Interp32Nodes Signal32Model Signal32Spec Signal32Props Signal32Whole Signal32Error Signal32Any Chunk32Spec Chunk32Props.
Local Open Scope R_scope.
Local Notation u := (/ 16777216).

(** * Specification *)
(** Every chunk that is found for an index contains the index, is not null, holds the values of [g] and is at most [len] long in every direction. *)
Definition library32 (G : green32) (sup : nat) (g : grid) (len : nat) : Prop := forall ir iz it m, h_chunk G [N.of_nat ir; N.of_nat iz; N.of_nat it] = Some m ->
  cm_type m = specified /\ exists s1 s2 s3 n1 n2 n3 ov data, chunk_at m [s1; s2; s3] [n1; n2; n3] ov /\ h_data G m = Some data /\ holds g s1 s2 s3 n1 n2 n3 ov data /\ (sup < ov)%nat /\
    moderate s1 n1 ov /\ moderate s2 n2 ov /\ moderate s3 n3 ov /\ (s1 <= ir < s1 + n1)%nat /\ (s2 <= iz < s2 + n2)%nat /\ (s3 <= it < s3 + n3)%nat /\ (n1 + 2 * ov < len)%nat /\ (n2 + 2 * ov < len)%nat /\ (n3 + 2 * ov < len)%nat.
(** The contribution [x] is the product of the source and of the weight with a value that is, up to the error of the interpolation, the exact interpolation at a position near to [r], [z], [t]. *)
Definition contribution (sup : nat) (weight : R -> nat -> R) (g : grid) (tol er et : R) (r z t : R) (source : f32 * f32) (w x : f32) : Prop :=
  exists (r' z' t' : R) (v0 v1 : f32), Rabs (r' - r) <= er /\ Rabs (z' - z) <= er /\ Rabs (t' - t) <= et /\
    within v0 (interpolated sup weight g r' z' t' 0) tol /\ within v1 (interpolated sup weight g r' z' t' 1) tol /\
    x = Bmult mode_NE (Bplus mode_NE (Bmult mode_NE v0 source.1) (Bmult mode_NE v1 source.2)) w.

(** * The loop *)
Section loop.
Context {A : Type} (plus : A -> f32 -> A).
Definition added (pos n : nat) (x : nat -> f32) (signal : list A) : list A := changed (fun j y => if ((pos <=? j) && (j <? pos + n))%nat then plus y (x (j - pos)%nat) else y) signal.
Lemma bump_added signal pos x s' : bump32 plus signal pos x = Some s' -> s' = added pos 1 (fun _ => x) signal.
Proof.
  unfold bump32. destruct (signal !! pos) as [y|] eqn:Hy; [|done]. intros [= <-]. apply list_eq. intros j. unfold added, changed. rewrite list_lookup_imap. pose proof (lookup_lt_Some _ _ _ Hy) as Hl. destruct (decide (j = pos)) as [->|Hne].
  - rewrite list_lookup_insert by done. rewrite Hy. simpl. rewrite Nat.leb_refl, (proj2 (Nat.ltb_lt _ _)) by lia. done.
  - rewrite list_lookup_insert_ne by done. destruct (signal !! j); [|done]. simpl. destruct (Nat.leb_spec pos j), (Nat.ltb_spec j (pos + 1)); simpl; try done; lia.
Qed.
Lemma added_added pos a b x y signal : added (pos + a) b y (added pos a x signal) = added pos (a + b) (fun i => if (i <? a)%nat then x i else y (i - a)%nat) signal.
Proof.
  unfold added. rewrite changed_changed. apply changed_ext. intros j v. destruct (Nat.leb_spec pos j), (Nat.ltb_spec j (pos + a)), (Nat.leb_spec (pos + a) j), (Nat.ltb_spec j (pos + a + b)), (Nat.ltb_spec j (pos + (a + b))), (Nat.ltb_spec (j - pos) a); simpl; try done; try lia.
  replace (j - pos - a)%nat with (j - (pos + a))%nat by lia. done.
Qed.
Lemma added_ext pos n x y signal : (forall i, (i < n)%nat -> x i = y i) -> added pos n x signal = added pos n y signal.
Proof. intros H. unfold added. apply changed_ext. intros j v. destruct (Nat.leb_spec pos j), (Nat.ltb_spec j (pos + n)); simpl; try done. by rewrite H by lia. Qed.
Lemma added_nil pos x signal : added pos 0 x signal = signal.
Proof. unfold added. rewrite <- (changed_id signal) at 2. apply changed_ext. intros j v. destruct (Nat.leb_spec pos j), (Nat.ltb_spec j (pos + 0)); simpl; try done; lia. Qed.
Lemma bumps_added (buf : list (list f32)) (source : f32 * f32) (w : f32) (x : nat -> f32) k a signal pos s' p' :
  (forall i, (a <= i < a + k)%nat -> exists v0 v1 : f32, buf !! i = Some [v0; v1] /\ x i = Bmult mode_NE (Bplus mode_NE (Bmult mode_NE v0 source.1) (Bmult mode_NE v1 source.2)) w) ->
  foldM (fun '(signal, pos) i => v ← buf !! i; y ← inner32 v source; signal ← bump32 plus signal pos (Bmult mode_NE y w); Some (signal, S pos)) (signal, pos) (seq a k) = Some (s', p') ->
  p' = (pos + k)%nat /\ s' = added pos k (fun i => x (a + i)%nat) signal.
Proof.
  revert a signal pos. induction k as [|k IH]; intros a signal pos Hx H.
  - cbn [seq foldM] in H. injection H as <- <-. split; [lia|]. by rewrite added_nil.
  - cbn [seq foldM] in H. destruct (Hx a ltac:(lia)) as (v0 & v1 & Hb & Ex). unfold f32 in *. rewrite Hb in H. cbn [mbind option_bind] in H.
    assert (inner32 [v0; v1] source = Some (Bplus mode_NE (Bmult mode_NE v0 source.1) (Bmult mode_NE v1 source.2))) as Ei by reflexivity. rewrite Ei in H. cbn [mbind option_bind] in H. rewrite <- Ex in H.
    destruct (bump32 plus signal pos (x a)) as [s1|] eqn:E1; [|done]. cbn [mbind option_bind] in H. apply bump_added in E1. subst s1.
    apply IH in H as [-> ->]; [|intros; apply Hx; lia]. split; [lia|]. replace (S pos) with (pos + 1)%nat by lia. rewrite added_added. apply added_ext. intros i Hi.
    destruct (Nat.ltb_spec i 1); [f_equal; lia|]. f_equal. lia.
Qed.

Context (G : green32) (K : kernel32) (sup : nat) (weight : R -> nat -> R) (tol : R -> R) (g : grid) (M T : R) (len : nat) (HK : kernel_of K sup weight tol) (HL : library32 G sup g len) (HM : 0 <= M <= 2 ^ 100) (Hg : grid_bounded M g).
Context (fr fz ft ts : f32) (ir iz n : nat) (source : f32 * f32) (w : f32).
Context (Fr : is_finite fr = true) (Fz : is_finite fz = true) (Ft : is_finite ft = true) (Fs : is_finite ts = true) (Cr : INR ir <= B2R fr < INR ir + 1) (Cz : INR iz <= B2R fz < INR iz + 1) (Ht0 : 0 <= B2R ft) (Hts : 0 < B2R ts).
Context (Hr : INR ir < 2 ^ 22) (Hz : INR iz < 2 ^ 22) (HT : B2R ft + INR n * B2R ts <= T) (HT' : T <= 2 ^ 21) (Hn : INR n <= 2 ^ 24).
Let et := (9 * INR len + 3 * T) / 2 ^ 24.
Let er := INR len / 2 ^ 24.

Lemma index_value (x : f32) (i : nat) : is_finite x = true -> INR i <= B2R x < INR i + 1 -> INR i < 2 ^ 24 -> to_size32 x = Some (N.of_nat i).
Proof using.
  clear. intros F H Hi. assert (2 ^ 24 = 16777216) as E24 by (simpl pow; lra). rewrite E24 in Hi. pose proof (pos_INR i). destruct (trunc_value x F) as (k & Hk & K1 & K2). { split; [lra|]. apply Rlt_le_trans with 16777217; [lra|]. simpl pow. lra. }
  rewrite Hk. f_equal. unfold real in *. rewrite INR_IZR_INZ in H. assert (IZR (Z.of_N k) < IZR (Z.of_nat i) + 1) as A1 by lra. assert (IZR (Z.of_nat i) < IZR (Z.of_N k) + 1) as A2 by lra. rewrite <- plus_IZR in A1, A2. apply lt_IZR in A1, A2. lia.
Qed.
Lemma loop_sound fuel cur pos signal s' : (cur <= n)%nat -> accumulate_loop32 plus G K false fr fz ft ts n source w fuel cur pos signal = Some s' ->
  exists x, s' = added pos (n - cur) x signal /\ forall i, (i < n - cur)%nat -> contribution sup weight g (tol M) er et (B2R fr) (B2R fz) (sample_time (B2R ft) (B2R ts) (cur + i)) source w (x i).
Proof.
  assert (2 ^ 24 = 16777216) as E24 by (simpl pow; lra). assert (2 ^ 22 = 4194304) as E22 by (simpl pow; lra). assert (2 ^ 21 = 2097152) as E21 by (simpl pow; lra). rewrite E22 in Hr, Hz. rewrite E21 in HT'. rewrite E24 in Hn.
  assert (0 < / 2 ^ 140) as P140 by (apply Rinv_0_lt_compat, pow_lt; lra). assert (/ 2 ^ 140 <= / 16777216) as Q140. { rewrite <- E24. apply Rinv_le_contravar; [apply pow_lt; lra|apply Rle_pow; [lra|lia]]. }
  assert (10000000 <= 2 ^ 100) as P100. { apply Rle_trans with (2 ^ 30); [simpl pow; lra|apply Rle_pow; [lra|lia]]. }
  revert cur pos signal. induction fuel as [|fuel IH]; intros cur pos signal Hcur H.
  - cbn [accumulate_loop32] in H. destruct (Nat.leb_spec n cur); [|done]. injection H as <-. exists (fun _ => zero32). replace (n - cur)%nat with 0%nat by lia. split; [by rewrite added_nil|lia].
  - cbn [accumulate_loop32] in H. destruct (Nat.leb_spec n cur) as [Hd|Hd]. { injection H as <-. exists (fun _ => zero32). replace (n - cur)%nat with 0%nat by lia. split; [by rewrite added_nil|lia]. }
    set (cft := sample_index32 ft ts cur) in *. assert (forall k, (k <= n)%nat -> 0 <= INR k * B2R ts <= INR n * B2R ts) as Hk. { intros k Hkn. split; [apply Rmult_le_pos; [apply pos_INR|lra]|apply Rmult_le_compat_r; [lra|by apply le_INR]]. }
    pose proof (Hk cur ltac:(lia)) as Hkc.
    destruct (C74_positions ft ts cur Ft Fs) as [Fc Vc]; [rewrite E24; apply Rle_trans with (INR n); [apply le_INR; lia|exact Hn]|rewrite Rabs_pos_eq by lra; lra|rewrite Rabs_pos_eq by lra; lra|].
    change (inner_ind32 ft ts cur) with cft in Fc, Vc. rewrite E24, (Rabs_pos_eq (B2R ft)), (Rabs_pos_eq (INR cur * B2R ts)) in Vc by lra. apply Rabs_le_inv in Vc.
    assert (0 <= B2R cft) as Hc0. { destruct (Rle_or_lt 0 (B2R cft)) as [Hx|Hx]; [exact Hx|]. exfalso. assert (0 <= B2R cft) as Hc0; [|lra]. unfold cft, sample_index32.
      destruct (count_value cur) as [Fn Vn]; [apply Rle_trans with (INR n); [apply le_INR; lia|exact Hn]|]. pose proof bpow127_big as B127. assert (2 ^ 100 <= 2 ^ 110) by (apply Rle_pow; [lra|lia]).
      destruct (mult_value32 (of_size (N.of_nat cur)) ts Fn Fs) as [Fm Vm]; [rewrite Vn, Rabs_pos_eq by lra; lra|]. rewrite Vn in Vm. pose proof (rnd_err (INR cur * B2R ts)) as Re. rewrite (Rabs_pos_eq (INR cur * B2R ts)) in Re by lra. apply Rabs_le_inv in Re. pose proof eta_small as He.
      pose proof (rnd_pos (INR cur * B2R ts) ltac:(lra)) as Rp. unfold f32 in *. destruct (plus_value ft (Bmult mode_NE (of_size (N.of_nat cur)) ts) Ft Fm) as [Fp Vp]; [rewrite Vm, Rabs_pos_eq by lra; lra|]. rewrite Vp. apply rnd_pos. rewrite Vm. lra. }
    set (it := Z.to_nat (Zfloor (B2R cft))). assert (INR it = IZR (Zfloor (B2R cft))) as Eit. { unfold it. rewrite INR_IZR_INZ, Z2Nat.id; [reflexivity|apply Zfloor_lub; lra]. }
    assert (INR it <= B2R cft < INR it + 1) as Ct by (rewrite Eit; split; [apply Zfloor_lb|apply Zfloor_ub]).
    rewrite (index_value fr ir Fr Cr) in H by lra. rewrite (index_value fz iz Fz Cz) in H by lra. rewrite (index_value cft it Fc Ct) in H by lra. cbn [mbind option_bind] in H.
    destruct (h_chunk G _) as [m|] eqn:Hm; [|done]. destruct (HL ir iz it m Hm) as (Hty & s1 & s2 & s3 & n1 & n2 & n3 & ov & data & Hat & Hdata & Hh & Hov & M1 & M2 & M3 & I1 & I2 & I3 & L1 & L2 & L3).
    destruct (_ <? _)%nat eqn:Hsup in H; [done|]. pose proof Hat as (_ & _ & Hend & _ & _). rewrite Hend in H. cbn [zip_with] in H. change ([N.of_nat (s1 + n1); N.of_nat (s2 + n2); N.of_nat (s3 + n3)] !! 2%nat) with (Some (N.of_nat (s3 + n3))) in H. cbn [mbind option_bind] in H.
    destruct (samples_from_chunk (N.of_nat (s3 + n3)) cft ts (n - cur)) as [req|] eqn:Hreq; [|done]. cbn [mbind option_bind] in H. rewrite Hty, N.eqb_refl in H.
    assert ((0 < req <= n - cur)%nat /\ forall s, (s < req)%nat -> sample_time (B2R cft) (B2R ts) s <= INR (s3 + n3) + / 2) as [Hrq Hsamp].
    { clear H. unfold samples_from_chunk in Hreq. destruct (to_size32 _) as [c|]; [|done]. cbn [mbind option_bind] in Hreq. set (q := Nat.min (N.to_nat c + 1) (n - cur)) in *. destruct (Bleb _ _) eqn:Hle; [|done]. injection Hreq as <-. assert (0 < q <= n - cur)%nat as Hq by (unfold q; lia). split; [exact Hq|].
      pose proof (Hk (q - 1)%nat ltac:(lia)) as Hkq. pose proof (Hk (cur + (q - 1))%nat ltac:(lia)) as Hkcq. rewrite plus_INR, Rmult_plus_distr_r in Hkcq.
      destruct (C74_positions cft ts (q - 1) Fc Fs) as [Fq Vq]; [rewrite E24; apply Rle_trans with (INR n); [apply le_INR; lia|exact Hn]|rewrite Rabs_pos_eq by lra; lra|rewrite Rabs_pos_eq by lra; lra|].
      rewrite E24, (Rabs_pos_eq (B2R cft)), (Rabs_pos_eq (INR (q - 1) * B2R ts)) in Vq by lra. apply Rabs_le_inv in Vq.
      destruct M3 as [M3 _]. rewrite E22 in M3. destruct (count_value (s3 + n3)) as [Fe Ve]; [lra|]. change (Bplus mode_NE cft (Bmult mode_NE (of_size (N.of_nat (q - 1))) ts)) with (inner_ind32 cft ts (q - 1)) in Hle.
      rewrite Bleb_correct in Hle by assumption. rewrite Ve in Hle. destruct (Rle_bool_spec (B2R (inner_ind32 cft ts (q - 1))) (INR (s3 + n3))) as [Hp|]; [|done].
      intros s Hs. unfold sample_time. assert (INR s * B2R ts <= INR (q - 1) * B2R ts) as Hsq. { apply Rmult_le_compat_r; [lra|]. apply le_INR. lia. } lra. }
    destruct (C76_chunk_values K sup weight tol G m g s1 s2 s3 n1 n2 n3 ov data M fr fz cft ts ir iz it req HK Hat Hdata Hh Hov M1 M2 M3 Hg HM Fr Fz Fc Fs Cr Cz Ct I1 I2 ltac:(lia) Hts) as (x1 & x2 & x3 & out & Hout & Hlen & E1 & E2 & Hx).
    { rewrite E24. apply Rle_trans with (INR n); [apply le_INR; lia|exact Hn]. } { exact Hsamp. }
    rewrite Hout in H. cbn [mbind option_bind] in H.
    destruct (foldM _ (signal, pos) (seq 0 req)) as [[sg ps]|] eqn:Hf in H; [|done]. cbn [mbind option_bind] in H.
    set (x := fun i => match out !! i with Some [v0; v1] => Bmult mode_NE (Bplus mode_NE (Bmult mode_NE v0 source.1) (Bmult mode_NE v1 source.2)) w | _ => zero32 end).
    apply (bumps_added out source w x) in Hf as [-> ->]. 2: { intros i Hi. destruct (Hx i ltac:(lia)) as (_ & v0 & v1 & Ho & _). exists v0, v1. split; [exact Ho|]. unfold x. unfold f32 in *. rewrite Ho. reflexivity. }
    apply IH in H as (x' & -> & Hx'); [|lia]. rewrite added_added. exists (fun i => if (i <? req)%nat then x (0 + i)%nat else x' (i - req)%nat). replace (req + (n - (cur + req)))%nat with (n - cur)%nat by lia. split; [reflexivity|].
    intros i Hi. destruct (Nat.ltb_spec i req) as [Hir|Hir].
    + destruct (Hx i Hir) as (E3 & v0 & v1 & Ho & W0 & W1). exists x1, x2, (x3 i), v0, v1.
      assert (INR (n1 + 2 * ov + 1) <= INR len /\ INR (n2 + 2 * ov + 1) <= INR len /\ INR (n3 + 2 * ov + 1) <= INR len) as (J1 & J2 & J3) by (split_and!; apply le_INR; lia).
      assert (1 <= INR len) as J4. { apply (le_INR 1). lia. } unfold er, et. rewrite E24 in *.
      split; [lra|]. split; [lra|]. split.
      { unfold sample_time in *. rewrite plus_INR, Rmult_plus_distr_r. pose proof (Hk (cur + i)%nat ltac:(lia)) as Hci. rewrite plus_INR, Rmult_plus_distr_r in Hci. apply Rabs_le_inv in E3. set (a := INR cur * B2R ts) in *. set (b := INR i * B2R ts) in *. apply Rabs_le. clearbody a b. lra. }
      split; [exact W0|]. split; [exact W1|]. unfold x. cbn [Nat.add]. unfold f32 in *. rewrite Ho. reflexivity.
    + destruct (Hx' (i - req)%nat ltac:(lia)) as (r' & z' & t' & v0 & v1 & D). replace (cur + req + (i - req))%nat with (cur + i)%nat in D by lia. exists r', z', t', v0, v1. exact D.
Qed.
End loop.
