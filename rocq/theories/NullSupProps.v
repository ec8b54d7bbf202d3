(** Property theorems C10, C11. *)
From stdpp Require Import base list list_numbers numbers option.
From Verif Require Import CodecModel CodecProps NullSupModel.
From Coq Require Import NArith Lia.

(** Specification: all components are +0.0 or -0.0. *)
Definition null_vector (v : list N) : Prop := Forall (fun b => b = 0 \/ b = 2 ^ 31)%N v.
(** There is no run of 2^32 or more consecutive null vectors. *)
Definition null_runs_below (bound : N) (els : list (list N)) : Prop :=
  forall i k, (forall j, (i <= j < i + k)%nat -> exists v, els !! j = Some v /\ null_vector v) -> (N.of_nat k < bound)%N.
(** Elements of [vd] 32-bit words. *)
Definition proper_elements (vd : nat) (els : list (list N)) : Prop :=
  Forall (fun v => length v = vd /\ Forall (fun b => b < 2 ^ 32)%N v) els.

Lemma is_null_spec v : is_null v = true <-> null_vector v.
Proof.
  unfold is_null, null_vector. rewrite forallb_forall, Forall_forall. setoid_rewrite <- elem_of_list_In.
  split; intros H x Hx; specialize (H x Hx); unfold is_zero_bits in *; rewrite orb_true_iff, !N.eqb_eq in *; done.
Qed.
Global Instance null_vector_dec v : Decision (null_vector v).
Proof. apply _. Defined.
Lemma is_null_zeros n : is_null (replicate n 0%N) = true.
Proof. induction n; done. Qed.

Lemma htonl_roundtrip w : (w < 2 ^ 32)%N -> ntohl (htonl w) = w.
Proof. intros H. rewrite ntohl_htonl. by apply N.mod_small. Qed.
Lemma ntohl_htonl_words v : Forall (fun b => b < 2 ^ 32)%N v -> ntohl <$> (htonl <$> v) = v.
Proof.
  intros H. rewrite <- list_fmap_compose. induction H as [|w v Hw Hv IH]; [done|]. rewrite fmap_cons, IH. simpl. by rewrite htonl_roundtrip.
Qed.

(** * Dense *)
Lemma dense_roundtrip vd els rest : proper_elements vd els ->
  dense_from_buffer vd (length els) (dense_to_buffer els ++ rest) = Some (els, rest).
Proof.
  unfold dense_to_buffer. induction 1 as [|v els [Hl Hw] Hels IH]; [done|].
  rewrite fmap_cons, mjoin_cons. cbn [length dense_from_buffer]. rewrite <- app_assoc.
  rewrite app_length, fmap_length. destruct (Nat.leb_spec vd (length v + length (mjoin ((fun v => htonl <$> v) <$> els) ++ rest))); [|lia].
  rewrite drop_app_alt, take_app_alt by (by rewrite fmap_length). rewrite IH. cbn [mbind option_bind].
  by rewrite ntohl_htonl_words.
Qed.
Lemma dense_length vd els : proper_elements vd els -> length (dense_to_buffer els) = (length els * vd)%nat.
Proof.
  unfold dense_to_buffer. induction 1 as [|v els [Hl Hw] Hels IH]; [done|].
  rewrite fmap_cons, mjoin_cons, app_length, IH, fmap_length. simpl. lia.
Qed.
Theorem C12_dense_buffer_round_trip vd els rest : proper_elements vd els ->
  length (dense_to_buffer els) = (length els * vd)%nat /\
  dense_from_buffer vd (length els) (dense_to_buffer els ++ rest) = Some (els, rest).
Proof. split; [by apply dense_length|by apply dense_roundtrip]. Qed.
Print Assumptions C12_dense_buffer_round_trip.

(** * Null suppression *)
(** The encoder as a recursive function: what is still written in state [n]. *)
Fixpoint enc_rest (vd : nat) (n : N) (els : list (list N)) : list N :=
  match els with
  | [] => if (0 <? n)%N then [htonl n] else []
  | v :: els' =>
      if is_null v then (if (n =? 0)%N then replicate vd (htonl 0) else []) ++ enc_rest vd ((n + 1) mod 2 ^ 32)%N els'
      else (if (0 <? n)%N then [htonl n] else []) ++ (htonl <$> v) ++ enc_rest vd 0 els'
  end.
Lemma suppress_enc_rest_gen vd els n out :
  (let '(k, o) := foldl (suppress_step vd) (n, out) els in if (0 <? k)%N then o ++ [htonl k] else o) = out ++ enc_rest vd n els.
Proof.
  revert n out; induction els as [|v els IH]; intros n out.
  - simpl. destruct (0 <? n)%N; [done|by rewrite app_nil_r].
  - cbn [foldl enc_rest]. unfold suppress_step at 2. destruct (is_null v).
    + rewrite IH. destruct (n =? 0)%N; [by rewrite app_assoc|done].
    + rewrite IH. destruct (0 <? n)%N; by rewrite <- ?app_assoc.
Qed.
Lemma suppress_enc_rest vd els : suppress_null vd els = enc_rest vd 0 els.
Proof. unfold suppress_null. apply (suppress_enc_rest_gen vd els 0 []). Qed.

(** Leading nulls. *)
Fixpoint lead (els : list (list N)) : nat :=
  match els with v :: els' => if is_null v then S (lead els') else 0 | [] => 0 end.

Lemma enc_rest_run vd els n : (0 < n)%N -> (n + N.of_nat (lead els) < 2 ^ 32)%N ->
  enc_rest vd n els = htonl (n + N.of_nat (lead els)) :: enc_rest vd 0 (drop (lead els) els).
Proof.
  revert n; induction els as [|v els IH]; intros n Hn Hb; cbn [enc_rest lead].
  - destruct (N.ltb_spec 0 n); [|lia]. simpl. by rewrite N.add_0_r.
  - cbn [lead] in Hb. destruct (is_null v) eqn:Hv.
    + destruct (N.eqb_spec n 0); [lia|]. cbn [app]. rewrite N.mod_small by lia. rewrite IH by lia.
      cbn [drop]. f_equal. f_equal. lia.
    + destruct (N.ltb_spec 0 n); [|lia]. cbn [app drop]. rewrite N.add_0_r. f_equal.
      cbn [enc_rest]. rewrite Hv. destruct (N.ltb_spec 0 0); [lia|]. done.
Qed.

Definition canon (vd : nat) (v : list N) : list N := if is_null v then replicate vd 0%N else v.

Lemma desuppress_zeros vd k n buf : (k < 2 ^ 32)%N ->
  desuppress vd (N.to_nat k + n) k buf = ('(l, r) ← desuppress vd n 0 buf; Some (replicate (N.to_nat k) (replicate vd 0%N) ++ l, r)).
Proof.
  intros Hk. remember (N.to_nat k) as m eqn:Hm. revert k Hk Hm; induction m as [|m IH]; intros k Hk Hm.
  - replace k with 0%N by lia. simpl. destruct (desuppress vd n 0 buf) as [[l r]|]; done.
  - cbn [Nat.add desuppress]. destruct (N.ltb_spec 0 k); [|lia]. rewrite (IH (k - 1)%N) by lia.
    destruct (desuppress vd n 0 buf) as [[l r]|]; done.
Qed.

Lemma lead_drop_runs els bound : null_runs_below bound els -> (N.of_nat (lead els) < bound)%N.
Proof.
  intros H. apply (H 0%nat). intros j [_ Hj]. simpl in Hj. clear H. revert j Hj; induction els as [|v els IH]; intros j Hj; simpl in Hj; [lia|].
  destruct (is_null v) eqn:Hv; [|lia]. destruct j as [|j].
  - exists v. split; [done|]. by apply is_null_spec.
  - simpl. apply IH. lia.
Qed.
Lemma null_runs_drop els bound k : null_runs_below bound els -> null_runs_below bound (drop k els).
Proof.
  intros H i m Hm. apply (H (k + i)%nat). intros j Hj. destruct (Hm (j - k)%nat) as (v & Hv & Hn); [lia|].
  exists v. split; [|done]. rewrite lookup_drop in Hv. rewrite <- Hv. f_equal. lia.
Qed.
Lemma lead_take vd els : canon vd <$> take (lead els) els = replicate (lead els) (replicate vd 0%N).
Proof.
  induction els as [|v els IH]; [done|]. cbn [lead]. destruct (is_null v) eqn:Hv; [|done].
  cbn [take replicate]. rewrite fmap_cons, IH. unfold canon. by rewrite Hv.
Qed.
Lemma lead_le els : (lead els <= length els)%nat.
Proof. induction els as [|v els IH]; [done|]. cbn [lead]. destruct (is_null v); simpl; lia. Qed.

Lemma nullsup_roundtrip vd els rest :
  proper_elements vd els -> null_runs_below (2 ^ 32) els ->
  desuppress vd (length els) 0 (enc_rest vd 0 els ++ rest) = Some (canon vd <$> els, rest).
Proof.
  remember (length els) as m eqn:Hm. revert els Hm rest. induction m as [m IH] using (well_founded_induction lt_wf).
  intros els Hm rest Hp Hr. subst m. destruct els as [|v els]; [done|].
  assert (null_runs_below (2 ^ 32) els) as Hr' by (apply (null_runs_drop _ _ 1 Hr)).
  apply list.Forall_cons in Hp as [[Hl Hw] Hp].
  cbn [length enc_rest]. cbn [desuppress]. destruct (N.ltb_spec 0 0); [lia|].
  destruct (is_null v) eqn:Hv.
  - destruct (N.eqb_spec 0 0); [|lia]. rewrite N.add_0_l, N.mod_small by lia.
    pose proof (lead_drop_runs _ _ Hr) as Hb. cbn [lead] in Hb. rewrite Hv in Hb.
    rewrite enc_rest_run by lia.
    rewrite <- !app_assoc. cbn [app]. rewrite app_length, replicate_length.
    set (R := htonl _ :: _). destruct (Nat.leb_spec vd (vd + length R)); [|lia].
    rewrite take_app_alt, drop_app_alt by (by rewrite replicate_length).
    assert (ntohl <$> replicate vd (htonl 0) = replicate vd 0%N) as Hz by (rewrite fmap_replicate; by rewrite htonl_roundtrip by lia).
    rewrite Hz, is_null_zeros. unfold R. cbn [app].
    rewrite htonl_roundtrip by lia.
    assert ((1 + N.of_nat (lead els) + (2 ^ 32 - 1)) mod 2 ^ 32 = N.of_nat (lead els))%N as ->.
    { replace (1 + N.of_nat (lead els) + (2 ^ 32 - 1))%N with (N.of_nat (lead els) + 1 * 2 ^ 32)%N by lia.
      rewrite N.mod_add by done. apply N.mod_small. lia. }
    pose proof (lead_le els).
    replace (length els) with (N.to_nat (N.of_nat (lead els)) + length (drop (lead els) els))%nat
      by (rewrite drop_length; lia).
    rewrite desuppress_zeros by lia. rewrite IH with (els := drop (lead els) els); [| |done| |].
    + cbn [mbind option_bind]. rewrite Nat2N.id, <- (lead_take vd els), <- fmap_app, take_drop.
      rewrite fmap_cons. unfold canon at 2. by rewrite Hv.
    + rewrite drop_length. simpl. lia.
    + by apply Forall_drop.
    + by apply null_runs_drop.
  - destruct (N.ltb_spec 0 0); [lia|]. cbn [app]. rewrite <- app_assoc, app_length, fmap_length.
    set (R := enc_rest vd 0 els ++ rest). destruct (Nat.leb_spec vd (length v + length R)); [|lia].
    rewrite take_app_alt, drop_app_alt by (by rewrite fmap_length). rewrite ntohl_htonl_words by done. rewrite Hv.
    unfold R. rewrite IH with (els := els); [|simpl; lia|done|done|done]. cbn [mbind option_bind].
    rewrite fmap_cons. unfold canon at 2. by rewrite Hv.
Qed.

Theorem C10_null_suppression_lossless vd els rest :
  proper_elements vd els -> null_runs_below (2 ^ 32) els ->
  exists els', desuppress_null vd (length els) (suppress_null vd els ++ rest) = Some (els', rest) /\
    length els' = length els /\
    forall i v, els !! i = Some v ->
      (null_vector v -> els' !! i = Some (replicate vd 0%N)) /\ (~ null_vector v -> els' !! i = Some v).
Proof.
  intros Hp Hr. exists (canon vd <$> els). split_and!.
  - rewrite suppress_enc_rest. by apply nullsup_roundtrip.
  - by rewrite fmap_length.
  - intros i v Hi. rewrite list_lookup_fmap, Hi. simpl. unfold canon. split; intros Hn.
    + by rewrite (proj2 (is_null_spec v) Hn).
    + destruct (is_null v) eqn:Hv; [|done]. by apply is_null_spec in Hv.
Qed.
Print Assumptions C10_null_suppression_lossless.

(** Non-null vectors with NaN, -0 components etc. survive; -0-only vectors come back as +0. *)
Example C10_nonvacuous :
  let els := [[0; 0]; [2 ^ 31; 0]; [0x7FC00001; 2 ^ 31]; [1; 2]; [0; 0]]%N in
  suppress_null 2 els = [0; 0; htonl 2; htonl 0x7FC00001; htonl (2 ^ 31); htonl 1; htonl 2; 0; 0; htonl 1]%N /\
  desuppress_null 2 5 (suppress_null 2 els) = Some ([[0; 0]; [0; 0]; [0x7FC00001; 2 ^ 31]; [1; 2]; [0; 0]], [])%N.
Proof. split; vm_compute; reflexivity. Qed.
Lemma null_runs_below_length els bound : (N.of_nat (length els) < bound)%N -> null_runs_below bound els.
Proof.
  intros Hl i k Hk. destruct k as [|k]; [lia|].
  destruct (Hk (i + k)%nat) as (v & Hv & _); [lia|]. apply lookup_lt_Some in Hv. lia.
Qed.

(** A run of exactly 2^32 nulls is beyond the counter: the run length is not written. *)
Lemma enc_rest_wrap vd n k : (0 < n < 2 ^ 32)%N -> (n + N.of_nat k = 2 ^ 32)%N ->
  enc_rest vd n (replicate k (replicate vd 0%N)) = [].
Proof.
  revert n; induction k as [|k IH]; intros n Hn Hk; cbn [replicate enc_rest].
  - lia.
  - rewrite is_null_zeros. destruct (N.eqb_spec n 0); [lia|]. cbn [app]. destruct k as [|k].
    + replace (n + 1)%N with (2 ^ 32)%N by lia. rewrite N.mod_same by done. done.
    + rewrite N.mod_small by lia. apply IH; lia.
Qed.
Theorem C10_run_counter_overflow_refuted vd :
  let els := replicate (N.to_nat (2 ^ 32)) (replicate vd 0%N) in
  suppress_null vd els = replicate vd (htonl 0) /\ desuppress_null vd (length els) (suppress_null vd els) = None.
Proof.
  set (K := N.to_nat (2 ^ 32)). assert (N.of_nat K = 2 ^ 32)%N as HK by (apply N2Nat.id). clearbody K.
  cbv zeta. assert (suppress_null vd (replicate K (replicate vd 0%N)) = replicate vd (htonl 0)) as Hs.
  { rewrite suppress_enc_rest. destruct K as [|k]; [lia|]. cbn [replicate enc_rest].
    rewrite is_null_zeros. destruct (N.eqb_spec 0 0); [|lia]. rewrite N.add_0_l, N.mod_small by lia.
    rewrite enc_rest_wrap by lia. by rewrite app_nil_r. }
  split; [done|]. rewrite Hs, replicate_length. destruct K as [|k]; [lia|].
  unfold desuppress_null. cbn [desuppress]. destruct (N.ltb_spec 0 0); [lia|].
  rewrite replicate_length, Nat.leb_refl.
  rewrite take_ge, drop_ge by (by rewrite replicate_length).
  rewrite fmap_replicate, htonl_roundtrip, is_null_zeros by lia. done.
Qed.
Print Assumptions C10_run_counter_overflow_refuted.

(** * C11 *)
Lemma enc_rest_length vd els n :
  proper_elements vd els ->
  (length (enc_rest vd n els) <= length els * vd + (length els + (if (0 <? n)%N then 2 else 1)) / 2)%nat.
Proof.
  intros Hp. revert n. induction Hp as [|v els [Hl _] Hp IH]; intros n; cbn [enc_rest length].
  - destruct (0 <? n)%N; simpl; lia.
  - destruct (is_null v).
    + rewrite app_length. specialize (IH ((n + 1) mod 2 ^ 32)%N).
      assert ((length els + (if (0 <? (n + 1) mod 2 ^ 32)%N then 2 else 1)) / 2 <= (S (length els) + 1) / 2)%nat.
      { apply Nat.div_le_mono; [lia|]. destruct (0 <? _)%N; lia. }
      assert ((S (length els) + 1) / 2 <= (S (length els) + (if (0 <? n)%N then 2 else 1)) / 2)%nat.
      { apply Nat.div_le_mono; [lia|]. destruct (0 <? n)%N; lia. }
      assert (length (if (n =? 0)%N then replicate vd (htonl 0) else []) <= vd)%nat by (destruct (n =? 0)%N; rewrite ?replicate_length; simpl; lia).
      lia.
    + rewrite !app_length, fmap_length, Hl. specialize (IH 0%N). change (0 <? 0)%N with false in IH. cbv iota in IH.
      destruct (N.ltb_spec 0 n) as [Hn|Hn].
      * assert ((S (length els) + 2) / 2 = S ((length els + 1) / 2))%nat as ->.
        { replace (S (length els) + 2)%nat with ((length els + 1) + 1 * 2)%nat by lia. rewrite Nat.div_add by lia. lia. }
        cbn [length]. lia.
      * assert ((length els + 1) / 2 <= (S (length els) + 1) / 2)%nat by (apply Nat.div_le_mono; lia).
        simpl length. lia.
Qed.
Theorem C11_buffer_bound_sufficient vd els :
  proper_elements vd els -> (length (suppress_null vd els) <= nullsup_buflen (length els) vd)%nat.
Proof.
  intros Hp. rewrite suppress_enc_rest. pose proof (enc_rest_length vd els 0 Hp) as H.
  change (0 <? 0)%N with false in H. cbv iota in H. unfold nullsup_buflen, int_div_ceil. replace (length els + 2 - 1)%nat with (length els + 1)%nat by lia. done.
Qed.
Print Assumptions C11_buffer_bound_sufficient.
(** The bound is attained, so no smaller one would do. *)
Theorem C11_buffer_bound_tight :
  exists els, proper_elements 2 els /\ length els = 5%nat /\ length (suppress_null 2 els) = nullsup_buflen 5 2.
Proof.
  exists [[0; 0]; [1; 1]; [0; 0]; [1; 1]; [0; 0]]%N. split_and!; [|done|done].
  repeat constructor.
Qed.
Print Assumptions C11_buffer_bound_tight.

(** C47: IntDivCeil. *)
Theorem C47_int_div_ceil x y : (0 < y)%nat ->
  (x <= int_div_ceil x y * y)%nat /\ forall k, (x <= k * y)%nat -> (int_div_ceil x y <= k)%nat.
Proof.
  intros Hy. unfold int_div_ceil. split.
  - pose proof (Nat.div_mod (x + y - 1) y). pose proof (Nat.mod_upper_bound (x + y - 1) y). lia.
  - intros k Hk. apply Nat.lt_succ_r. apply Nat.div_lt_upper_bound; lia.
Qed.
Print Assumptions C47_int_div_ceil.
(** In size_t arithmetic (mod 2^64) the result is the same as long as x + y - 1 is representable, ... *)
Definition int_div_ceil_w (x y : N) : N := (((x + y) mod 2 ^ 64 + (2 ^ 64 - 1)) mod 2 ^ 64 / y)%N.
Theorem C47_int_div_ceil_64bit x y : (0 < y)%N -> (x + y <= 2 ^ 64)%N ->
  (x <= int_div_ceil_w x y * y)%N /\ forall k, (x <= k * y)%N -> (int_div_ceil_w x y <= k)%N.
Proof.
  intros Hy Hb. assert (int_div_ceil_w x y = (x + y - 1) / y)%N as ->.
  { unfold int_div_ceil_w. f_equal. destruct (N.eq_dec (x + y) (2 ^ 64)) as [->|].
    - rewrite N.mod_same, N.add_0_l, N.mod_small by lia. lia.
    - rewrite (N.mod_small (x + y)) by lia. replace (x + y + (2 ^ 64 - 1))%N with ((x + y - 1) + 1 * 2 ^ 64)%N by lia.
      rewrite N.mod_add by done. apply N.mod_small. lia. }
  split.
  - pose proof (N.div_mod (x + y - 1) y). pose proof (N.mod_lt (x + y - 1) y). nia.
  - intros k Hk. apply N.lt_succ_r. apply N.div_lt_upper_bound; [lia|]. nia.
Qed.
Print Assumptions C47_int_div_ceil_64bit.
(** ... and wrong beyond. *)
Theorem C47_int_div_ceil_overflow_refuted : exists x y, (0 < y)%N /\ (x < 2 ^ 64)%N /\ (int_div_ceil_w x y * y < x)%N.
Proof. exists (2 ^ 64 - 1)%N, 3%N. vm_compute. done. Qed.
Print Assumptions C47_int_div_ceil_overflow_refuted.
