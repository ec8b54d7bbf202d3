(** Property theorems C08, C09. *)
From stdpp Require Import base list list_numbers numbers option.
From Verif Require Import CodecModel.
From Coq Require Import NArith Lia.

(** Specification: big-endian encoding, most significant byte first. *)
Fixpoint big_endian (k : nat) (v : N) : list N :=
  match k with O => [] | S k' => ((v / 256 ^ N.of_nat k') mod 256)%N :: big_endian k' v end.

(** A prescription round-trips: decoding what was encoded, followed by
    anything, returns the value and exactly what followed. *)
Definition round_trips {A} (c : codec A) : Prop :=
  forall v rest, dom c v -> dec c (enc c v ++ rest) = Some (v, rest).

Lemma to_le_length k v : length (to_le k v) = k.
Proof. revert v; induction k; intros v; simpl; [done|]. by rewrite IHk. Qed.
Lemma to_le_byte k v : Forall (fun b => b < 256)%N (to_le k v).
Proof. revert v; induction k; intros v; simpl; [done|]. constructor; [|done]. apply N.mod_lt. done. Qed.

Lemma of_to_le k v : of_le (to_le k v) = (v mod 256 ^ N.of_nat k)%N.
Proof.
  revert v; induction k as [|k IH]; intros v.
  - simpl. by rewrite N.mod_1_r.
  - simpl to_le. cbn [of_le]. rewrite IH. rewrite Nat2N.inj_succ, N.pow_succ_r'.
    rewrite (N.mod_mul_r v 256) by (try done; by apply N.pow_nonzero). lia.
Qed.
Lemma to_of_le l : Forall (fun b => b < 256)%N l -> to_le (length l) (of_le l) = l.
Proof.
  induction 1 as [|b l Hb Hl IH]; [done|]. cbn [length to_le of_le]. f_equal.
  - rewrite N.mul_comm, N.mod_add by done. by apply N.mod_small.
  - rewrite N.mul_comm, N.div_add by done. rewrite N.div_small by done. by rewrite N.add_0_l.
Qed.
Lemma of_le_bound l : Forall (fun b => b < 256)%N l -> (of_le l < 256 ^ N.of_nat (length l))%N.
Proof.
  induction 1 as [|b l Hb Hl IH]; [done|]. cbn [length of_le]. rewrite Nat2N.inj_succ, N.pow_succ_r'. lia.
Qed.
Lemma of_le_app l1 l2 : of_le (l1 ++ l2) = (of_le l1 + 256 ^ N.of_nat (length l1) * of_le l2)%N.
Proof.
  induction l1 as [|b l1 IH]; [cbn [app of_le length N.of_nat]; rewrite N.pow_0_r; lia|]. cbn [app length of_le]. rewrite IH, Nat2N.inj_succ, N.pow_succ_r'. lia.
Qed.
Lemma to_le_app k1 k2 v : to_le (k1 + k2) v = to_le k1 v ++ to_le k2 (v / 256 ^ N.of_nat k1).
Proof.
  revert v; induction k1 as [|k1 IH]; intros v.
  - simpl. by rewrite N.div_1_r.
  - cbn [Nat.add to_le app]. f_equal. rewrite IH. f_equal. f_equal.
    rewrite N.div_div by (try done; by apply N.pow_nonzero). f_equal.
    by rewrite Nat2N.inj_succ, N.pow_succ_r'.
Qed.
Lemma to_le_mod k v : to_le k (v mod 256 ^ N.of_nat k) = to_le k v.
Proof. rewrite <- of_to_le. rewrite <- (to_le_length k v) at 1. apply to_of_le, to_le_byte. Qed.

Lemma rev_bytes l : Forall (fun b => b < 256)%N l -> Forall (fun b => b < 256)%N (rev l).
Proof. apply Forall_rev. Qed.

Lemma htonl_le v : to_le 4 (htonl v) = rev (to_le 4 v).
Proof. unfold htonl. apply (to_of_le (rev (to_le 4 v))). apply rev_bytes, to_le_byte. Qed.
Lemma htonl_bound v : (htonl v < 2 ^ 32)%N.
Proof. unfold htonl. apply (of_le_bound (rev (to_le 4 v))). apply rev_bytes, to_le_byte. Qed.
Lemma ntohl_htonl v : ntohl (htonl v) = (v mod 2 ^ 32)%N.
Proof. unfold ntohl. rewrite htonl_le, rev_involutive. apply of_to_le. Qed.

Lemma rev_to_le k v : rev (to_le k v) = big_endian k v.
Proof.
  induction k as [|k IH]; [done|]. replace (S k) with (k + 1)%nat at 1 by lia. rewrite to_le_app, rev_app_distr, IH. done.
Qed.

Lemma lor_shiftl a b n : (b < 2 ^ n)%N -> N.lor (N.shiftl a n) b = (a * 2 ^ n + b)%N.
Proof.
  intros Hb. rewrite <- N.shiftl_mul_pow2. rewrite <- N.lxor_lor, <- N.add_nocarry_lxor; [done|..].
  all: apply N.bits_inj; intros m; rewrite N.land_spec, N.bits_0;
    destruct (N.lt_ge_cases m n) as [Hm|Hm]; [by rewrite N.shiftl_spec_low|].
  all: apply andb_false_iff; right; destruct (N.eq_dec b 0) as [->|Hz]; [apply N.bits_0|];
    apply N.bits_above_log2; apply N.lt_le_trans with n; [|done]; apply N.log2_lt_pow2; lia.
Qed.

Lemma htonll_le v : to_le 8 (htonll v) = rev (to_le 8 v).
Proof.
  unfold htonll. rewrite lor_shiftl by apply htonl_bound.
  change 0xFFFFFFFF%N with (N.ones 32). rewrite N.land_ones, N.shiftr_div_pow2.
  change 8%nat with (4 + 4)%nat. rewrite (to_le_app 4 4), (to_le_app 4 4 v), rev_app_distr.
  change (256 ^ N.of_nat 4)%N with (2 ^ 32)%N. f_equal.
  - rewrite <- htonl_le. rewrite <- to_le_mod. change (256 ^ N.of_nat 4)%N with (2 ^ 32)%N.
    rewrite N.add_comm, N.mod_add by done. rewrite N.mod_small by apply htonl_bound. done.
  - rewrite N.add_comm, N.div_add by done. rewrite N.div_small by apply htonl_bound. rewrite N.add_0_l, htonl_le.
    f_equal. apply (to_le_mod 4).
Qed.
Lemma ntohll_htonll v : ntohll (htonll v) = (v mod 2 ^ 64)%N.
Proof.
  assert (to_le 8 (ntohll (htonll v)) = to_le 8 v) as H.
  { change ntohll with htonll. by rewrite htonll_le, htonll_le, rev_involutive. }
  apply (f_equal of_le) in H. rewrite !of_to_le in H. change (256 ^ N.of_nat 8)%N with (2 ^ 64)%N in H.
  rewrite N.mod_small in H; [done|].
  unfold ntohll. change ntohl with htonl. rewrite lor_shiftl by apply htonl_bound.
  pose proof (htonl_bound (N.land (htonll v) 0xFFFFFFFF)). pose proof (htonl_bound (N.shiftr (htonll v) 32)).
  change (2 ^ 64)%N with (2 ^ 32 * 2 ^ 32)%N. nia.
Qed.

Lemma read_bytes_app n l rest : length l = n -> read_bytes n (l ++ rest) = Some (l, rest).
Proof.
  intros <-. unfold read_bytes. rewrite app_length. destruct (Nat.leb_spec (length l) (length l + length rest)); [|lia].
  by rewrite take_app, drop_app.
Qed.

Lemma u32_rt : round_trips u32.
Proof.
  intros v rest Hv. unfold u32, dec, enc. rewrite read_bytes_app by apply to_le_length. cbn [mbind option_bind].
  rewrite of_to_le. change (256 ^ N.of_nat 4)%N with (2 ^ 32)%N.
  rewrite (N.mod_small (htonl v)) by apply htonl_bound. rewrite ntohl_htonl, N.mod_small by done. done.
Qed.
Lemma htonll_bound v : (htonll v < 2 ^ 64)%N.
Proof.
  unfold htonll. rewrite lor_shiftl by apply htonl_bound.
  pose proof (htonl_bound (N.land v 0xFFFFFFFF)). pose proof (htonl_bound (N.shiftr v 32)).
  change (2 ^ 64)%N with (2 ^ 32 * 2 ^ 32)%N. nia.
Qed.
Lemma u64_rt : round_trips u64.
Proof.
  intros v rest Hv. unfold u64, dec, enc. rewrite read_bytes_app by apply to_le_length. cbn [mbind option_bind].
  rewrite of_to_le. change (256 ^ N.of_nat 8)%N with (2 ^ 64)%N.
  rewrite (N.mod_small (htonll v)) by apply htonll_bound. rewrite ntohll_htonll, N.mod_small by done. done.
Qed.

Theorem C08_scalars_round_trip : round_trips u32 /\ round_trips u64 /\ round_trips f32 /\ round_trips f64.
Proof. split_and!; auto using u32_rt, u64_rt. Qed.
Print Assumptions C08_scalars_round_trip.

Theorem C08_scalars_big_endian :
  (forall v, (v < 2 ^ 32)%N -> enc u32 v = big_endian 4 v /\ enc f32 v = big_endian 4 v) /\
  (forall v, (v < 2 ^ 64)%N -> enc u64 v = big_endian 8 v /\ enc f64 v = big_endian 8 v).
Proof.
  split; intros v _; unfold f32, f64, u32, u64, enc; rewrite ?htonl_le, ?htonll_le, rev_to_le; done.
Qed.
Print Assumptions C08_scalars_big_endian.
Example C08_nonvacuous :
  enc u32 0x01020304%N = [1; 2; 3; 4]%N /\ dec u32 [1; 2; 3; 4; 9]%N = Some (0x01020304, [9])%N /\
  (* NaN with payload *) dec f64 (enc f64 0x7FF0000000000123%N) = Some (0x7FF0000000000123, [])%N /\
  (* too short *) dec u64 [1; 2]%N = None.
Proof. repeat split; vm_compute; reflexivity. Qed.

(** * Containers *)
Lemma mjoin_cons {A} (x : list A) l : mjoin (x :: l) = x ++ mjoin l.
Proof. done. Qed.
Lemma dec_n_rt {A} (c : codec A) l rest :
  round_trips c -> Forall (dom c) l -> dec_n c (length l) (enc_all c l ++ rest) = Some (l, rest).
Proof.
  intros Hc. unfold enc_all. induction 1 as [|x l Hx Hl IH]; [done|].
  rewrite fmap_cons, mjoin_cons. cbn [length dec_n]. rewrite <- app_assoc, Hc by done. cbn [mbind option_bind]. by rewrite IH.
Qed.
Lemma vec_rt {A} (c : codec A) : round_trips c -> round_trips (vec c).
Proof.
  intros Hc l rest [Hn Hl]. unfold vec. cbn [enc dec]. rewrite <- app_assoc, u64_rt by done. cbn [mbind option_bind].
  rewrite Nat2N.id. by apply dec_n_rt.
Qed.
Lemma arr_rt {A} n (c : codec A) : round_trips c -> round_trips (arr n c).
Proof. intros Hc l rest [<- Hl]. by apply dec_n_rt. Qed.
Lemma str_rt : round_trips str.
Proof.
  intros l rest [Hn Hl]. unfold str. cbn [enc dec]. rewrite <- app_assoc, u64_rt by done. cbn [mbind option_bind].
  by rewrite Nat2N.id, read_bytes_app.
Qed.
Lemma pair_rt {A B} (c : codec A) (d : codec B) : round_trips c -> round_trips d -> round_trips (pairc c d).
Proof.
  intros Hc Hd [a b] rest [Ha Hb]. unfold pairc. cbn [enc dec fst snd]. rewrite <- app_assoc, Hc by done. cbn [mbind option_bind].
  by rewrite Hd.
Qed.

Lemma enc_words_length l : length (mjoin ((fun v => to_le 4 (htonl v)) <$> l)) = (4 * length l)%nat.
Proof. induction l as [|x l IH]; [done|]. rewrite fmap_cons, mjoin_cons, app_length, to_le_length, IH. simpl. lia. Qed.
Lemma words_enc l rest : Forall (dom f32) l -> words (length l) (mjoin ((fun v => to_le 4 (htonl v)) <$> l) ++ rest) = l.
Proof.
  induction 1 as [|x l Hx Hl IH]; [done|]. rewrite fmap_cons, mjoin_cons. cbn [length words]. rewrite <- app_assoc.
  rewrite take_app_alt, drop_app_alt by (by rewrite to_le_length). rewrite IH. f_equal.
  rewrite of_to_le. change (256 ^ N.of_nat 4)%N with (2 ^ 32)%N.
  rewrite (N.mod_small (htonl x)) by apply htonl_bound. rewrite ntohl_htonl. by apply N.mod_small.
Qed.
Lemma float_blocks_rt bs l rest fuel fuel' :
  (0 < bs)%nat -> Forall (dom f32) l -> (length l <= fuel)%nat -> (length l <= fuel')%nat ->
  float_blocks_dec fuel' bs (length l) (float_blocks_enc fuel bs l ++ rest) = Some (l, rest).
Proof.
  intros Hbs. revert fuel' l. induction fuel as [|fuel IH]; intros fuel' l Hl Hf Hf'.
  { destruct l; [|simpl in Hf; lia]. by destruct fuel'. }
  destruct l as [|x l]; [by destruct fuel'|]. set (L := x :: l) in *.
  destruct fuel' as [|fuel']; [simpl in Hf'; lia|].
  assert (float_blocks_enc (S fuel) bs L = mjoin ((fun v => to_le 4 (htonl v)) <$> take (Nat.min (length L) bs) L) ++ float_blocks_enc fuel bs (drop bs L)) as -> by done.
  assert (float_blocks_dec (S fuel') bs (length L) = fun s => let k := Nat.min (length L) bs in
             '(b, s1) ← read_bytes (4 * k) s;
             '(l, s2) ← float_blocks_dec fuel' bs (length L - k) s1;
             Some (words k b ++ l, s2)) as -> by done.
  cbv zeta. set (k := Nat.min (length L) bs).
  assert (length (take k L) = k) as Hk by (rewrite take_length; lia).
  rewrite <- app_assoc, read_bytes_app by (by rewrite enc_words_length, Hk). cbn [mbind option_bind].
  assert (length L - k = length (drop bs L))%nat as -> by (rewrite drop_length; lia).
  rewrite IH.
  - cbn [mbind option_bind]. pose proof (words_enc (take k L) []) as Hw. rewrite app_nil_r, Hk in Hw.
    rewrite Hw by (by apply Forall_take). do 2 f_equal.
    replace (drop bs L) with (drop k L); [apply take_drop|]. unfold k.
    destruct (Nat.min_spec (length L) bs) as [[? ->]|[? ->]]; [|done]. by rewrite !drop_ge by lia.
  - by apply Forall_drop.
  - rewrite drop_length. simpl in *. lia.
  - rewrite drop_length. simpl in *. lia.
Qed.
Lemma vecf_rt bs : (0 < bs)%nat -> round_trips (vecf bs).
Proof.
  intros Hbs l rest [Hn Hl]. unfold vecf. cbn [enc dec]. rewrite <- app_assoc, u64_rt by done. cbn [mbind option_bind].
  rewrite Nat2N.id. by apply float_blocks_rt.
Qed.

Lemma map_insert_last {K V} (ltb : K -> K -> bool) k (v : V) m :
  Forall (fun kv => ltb kv.1 k = true /\ ltb k kv.1 = false) m -> map_insert ltb k v m = m ++ [(k, v)].
Proof.
  induction 1 as [|[k' v'] m [H1 H2] Hm IH]; [done|]. simpl in *. rewrite H2, H1, IH. done.
Qed.
Lemma map_rebuild {K V} (ltb : K -> K -> bool) (m0 m : list (K * V)) :
  (forall i j ki kj, (i < j)%nat -> (m0 ++ m).*1 !! i = Some ki -> (m0 ++ m).*1 !! j = Some kj ->
     ltb ki kj = true /\ ltb kj ki = false) ->
  foldl (fun m kv => map_insert ltb kv.1 kv.2 m) m0 m = m0 ++ m.
Proof.
  revert m0; induction m as [|[k v] m IH]; intros m0 Hs; simpl; [by rewrite app_nil_r|].
  rewrite map_insert_last.
  - rewrite IH; rewrite <- app_assoc; [done|exact Hs].
  - apply Forall_lookup. intros i [k' v'] Hi. simpl. apply (Hs i (length m0)).
    + by apply lookup_lt_Some in Hi.
    + rewrite list_lookup_fmap, lookup_app_l by (by apply lookup_lt_Some in Hi). by rewrite Hi.
    + rewrite list_lookup_fmap, lookup_app_r by lia. by rewrite Nat.sub_diag.
Qed.
Lemma map_rt {K V} ltb (ck : codec K) (cv : codec V) : round_trips ck -> round_trips cv -> round_trips (mapc ltb ck cv).
Proof.
  intros Hk Hv m rest (Hn & Hd & Hs). unfold mapc. cbn [enc dec]. rewrite <- app_assoc.
  rewrite (vec_rt ck Hk).
  2:{ split; [by rewrite fmap_length|]. rewrite Forall_fmap. eapply list.Forall_impl; [exact Hd|]. simpl; tauto. }
  cbn [mbind option_bind]. rewrite (vec_rt cv Hv).
  2:{ split; [by rewrite fmap_length|]. rewrite Forall_fmap. eapply list.Forall_impl; [exact Hd|]. simpl; tauto. }
  cbn [mbind option_bind]. rewrite !fmap_length, Nat.eqb_refl, zip_fst_snd.
  rewrite (map_rebuild ltb [] m Hs). done.
Qed.

(** C09: the closure of the scalar prescriptions under all container prescriptions. *)
Inductive prescription : forall {A}, codec A -> Prop :=
  | p_u32 : prescription u32
  | p_u64 : prescription u64
  | p_f32 : prescription f32
  | p_f64 : prescription f64
  | p_str : prescription str
  | p_vecf bs : (0 < bs)%nat -> prescription (vecf bs)
  | p_vec {A} (c : codec A) : prescription c -> prescription (vec c)
  | p_arr {A} n (c : codec A) : prescription c -> prescription (arr n c)
  | p_map {K V} ltb (c : codec K) (d : codec V) : prescription c -> prescription d -> prescription (mapc ltb c d)
  | p_pair {A B} (c : codec A) (d : codec B) : prescription c -> prescription d -> prescription (pairc c d).

Theorem C09_containers_round_trip {A} (c : codec A) : prescription c -> round_trips c.
Proof.
  induction 1; eauto using u32_rt, u64_rt, str_rt, vecf_rt, vec_rt, arr_rt, map_rt, pair_rt.
Qed.
Print Assumptions C09_containers_round_trip.

(** Values written one after another are read back one after another. *)
Theorem C09_sequence_read_back {A B} (c : codec A) (d : codec B) a b rest :
  prescription c -> prescription d -> dom c a -> dom d b ->
  exists s, dec c (enc c a ++ enc d b ++ rest) = Some (a, s) /\ dec d s = Some (b, rest).
Proof.
  intros Hc Hd Ha Hb. exists (enc d b ++ rest). split; by apply C09_containers_round_trip.
Qed.
Print Assumptions C09_sequence_read_back.

(** The block-wise path for float vectors writes the same bytes as the general one,
    for every block size. *)
Lemma float_blocks_all bs l fuel : (0 < bs)%nat -> (length l <= fuel)%nat ->
  float_blocks_enc fuel bs l = enc_all f32 l.
Proof.
  intros Hbs. revert l; induction fuel as [|fuel IH]; intros l Hf; [by destruct l; [|simpl in Hf; lia]|].
  destruct l as [|x l]; [done|]. set (L := x :: l) in *.
  assert (float_blocks_enc (S fuel) bs L = mjoin ((fun v => to_le 4 (htonl v)) <$> take (Nat.min (length L) bs) L) ++ float_blocks_enc fuel bs (drop bs L)) as -> by done.
  rewrite IH by (rewrite drop_length; simpl in *; lia).
  unfold enc_all. change (fun v => to_le 4 (htonl v)) with (enc f32).
  assert (forall l1 l2 : list bytes, mjoin (l1 ++ l2) = mjoin l1 ++ mjoin l2) as Hj.
  { induction l1 as [|y l1 IHl]; intros l2; [done|]. cbn [app]. rewrite !mjoin_cons, IHl. by rewrite app_assoc. }
  rewrite <- Hj, <- fmap_app. do 2 f_equal.
  replace (drop bs L) with (drop (Nat.min (length L) bs) L); [apply take_drop|].
  destruct (Nat.min_spec (length L) bs) as [[? ->]|[? ->]]; [|done]. by rewrite !drop_ge by lia.
Qed.
Theorem C09_float_vector_layout_independent_of_block_size bs l :
  (0 < bs)%nat -> enc (vecf bs) l = enc (vec f32) l.
Proof. intros Hbs. unfold vecf, vec. cbn [enc]. f_equal. by apply float_blocks_all. Qed.
Print Assumptions C09_float_vector_layout_independent_of_block_size.

Example C09_nonvacuous :
  let m : list (bytes * list N) := [([97; 98], [1; 2; 3]); ([99], [])]%N in
  dec (vecf 2) (enc (vecf 2) [1; 2; 3; 4; 5] ++ [7])%N = Some ([1; 2; 3; 4; 5], [7])%N /\
  dec (pairc str (vec u32)) (enc (pairc str (vec u32)) ([97; 98], [1; 2; 3])%N) = Some (([97; 98], [1; 2; 3])%N, []) /\
  dec (mapc (fun a b => match a, b with x :: _, y :: _ => (x <? y)%N | _, _ => false end) str (vec u32))
      (enc (mapc (fun a b => match a, b with x :: _, y :: _ => (x <? y)%N | _, _ => false end) str (vec u32)) m) = Some (m, []).
Proof. repeat split; vm_compute; reflexivity. Qed.
