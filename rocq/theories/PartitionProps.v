(** C39: the re-chunking work is divided exactly once among the jobs. *)
From stdpp Require Import base list list_numbers numbers option.
From Coq Require Import ZArith Reals Lra Lia.
From Flocq Require Import Core.
From Verif Require Import IndexSpec LoopsModel LoopsProofs PartitionModel.

(** * Single-precision quotients *)
Global Instance f32_valid : Valid_exp (FLT_exp (-149) 24).
Proof. apply FLT_exp_valid. reflexivity. Qed.
Lemma bpow_f32 e : (-149 <= e)%Z -> generic_format radix2 (FLT_exp (-149) 24) (bpow radix2 e).
Proof. intros. apply generic_format_bpow. unfold FLT_exp. lia. Qed.
Lemma float32_ge x e : (-149 <= e)%Z -> (bpow radix2 e <= x)%R -> (bpow radix2 e <= float32 x)%R.
Proof. intros. apply round_ge_generic; [apply f32_valid|apply valid_rnd_N|by apply bpow_f32|done]. Qed.
Lemma float32_le x e : (-149 <= e)%Z -> (x <= bpow radix2 e)%R -> (float32 x <= bpow radix2 e)%R.
Proof. intros. apply round_le_generic; [apply f32_valid|apply valid_rnd_N|by apply bpow_f32|done]. Qed.
Lemma bpow64 : bpow radix2 64 = IZR (2 ^ 64).
Proof. rewrite <- (IZR_Zpower radix2) by lia. reflexivity. Qed.
Lemma to_float_bounds n : (1 <= n)%nat -> (Z.of_nat n <= 2 ^ 64)%Z -> (1 <= to_float n <= bpow radix2 64)%R.
Proof.
  intros H1 H2. unfold to_float. split.
  - apply (float32_ge _ 0); [lia|]. simpl. apply IZR_le. lia.
  - apply float32_le; [lia|]. rewrite bpow64. by apply IZR_le.
Qed.
Lemma fceil_div_bounds a b : (1 <= a)%nat -> (1 <= b)%nat -> (Z.of_nat a <= 2 ^ 64)%Z -> (Z.of_nat b <= 2 ^ 64)%Z ->
  (1 <= fceil_div a b)%nat /\ (Z.of_nat (fceil_div a b) <= 2 ^ 64)%Z.
Proof.
  intros Ha Hb Ha2 Hb2. destruct (to_float_bounds a Ha Ha2) as [A1 A2]. destruct (to_float_bounds b Hb Hb2) as [B1 B2].
  set (q := (to_float a / to_float b)%R).
  assert (bpow radix2 (-64) <= q)%R as Q1.
  { unfold q, Rdiv. rewrite <- (Rmult_1_l (bpow radix2 (-64))). apply Rmult_le_compat; [lra|apply bpow_ge_0|done|].
    change (-64)%Z with (- (64))%Z. rewrite bpow_opp. apply Rinv_le; [lra|done]. }
  assert (q <= bpow radix2 64)%R as Q2.
  { unfold q. apply Rle_trans with (to_float a / 1)%R; [|lra]. apply Rmult_le_compat_l; [lra|]. apply Rinv_le; lra. }
  assert (bpow radix2 (-64) <= float32 q)%R as F1 by (apply float32_ge; [lia|done]).
  assert (float32 q <= bpow radix2 64)%R as F2 by (apply float32_le; [lia|done]).
  pose proof (bpow_gt_0 radix2 (-64)) as P.
  unfold fceil_div. fold q.
  assert (0 < Zceil (float32 q))%Z as C1.
  { apply lt_IZR. apply Rlt_le_trans with (float32 q); [simpl; lra|]. apply Zceil_ub. }
  assert (Zceil (float32 q) <= 2 ^ 64)%Z as C2 by (apply Zceil_glb; by rewrite <- bpow64).
  lia.
Qed.

(** * The number of partitions *)
Definition prodZ (l : list nat) : Z := foldr Z.mul 1%Z (Z.of_nat <$> l).
Lemma prodZ_cons a l : prodZ (a :: l) = (Z.of_nat a * prodZ l)%Z.
Proof. done. Qed.
Lemma prodZ_pos l : Forall (fun n => 1 <= n)%nat l -> (1 <= prodZ l)%Z.
Proof. induction 1 as [|a l H Hs IH]; [done|]. rewrite prodZ_cons. nia. Qed.
Lemma prodZ_alter l i : Forall (fun n => 1 <= n)%nat l -> (i < length l)%nat ->
  exists r, prodZ (alter S i l) = (prodZ l + r)%Z /\ (1 <= r <= prodZ l)%Z.
Proof.
  intros H. revert i. induction H as [|a l H Hs IH]; intros i Hi; simpl in Hi; [lia|]. destruct i as [|i].
  - exists (prodZ l). change (alter S 0 (a :: l)) with (S a :: l). rewrite !prodZ_cons. pose proof (prodZ_pos _ Hs). split; nia.
  - destruct (IH i) as (r & E & Hr); [lia|]. exists (Z.of_nat a * r)%Z. change (alter S (S i) (a :: l)) with (a :: alter S i l).
    rewrite !prodZ_cons, E. split; nia.
Qed.
Lemma alter_pos l i : Forall (fun n => 1 <= n)%nat l -> Forall (fun n => 1 <= n)%nat (alter S i l).
Proof. intros H. revert i. induction H as [|a l H Hs IH]; intros [|i]; cbn; constructor; auto; lia. Qed.
Lemma number_partitions_eq l : number_partitions l = if (prodZ l <? 2 ^ 31)%Z then Some (prodZ l) else None.
Proof. done. Qed.

Lemma grow_partitions_spec fuel axis req pars :
  (2 * Z.of_nat req <= 2 ^ 31)%Z -> Forall (fun n => 1 <= n)%nat pars -> (axis < length pars)%nat ->
  (prodZ pars < 2 ^ 31)%Z -> (Z.of_nat req <= prodZ pars + Z.of_nat fuel)%Z ->
  exists pars', grow_partitions fuel axis req pars = Some pars' /\ length pars' = length pars /\
    Forall (fun n => 1 <= n)%nat pars' /\ (Z.of_nat req <= prodZ pars' < 2 ^ 31)%Z.
Proof.
  intros Hreq. revert pars. induction fuel as [|f IH]; intros pars Hp Ha Hlt Hf; cbn [grow_partitions];
    rewrite number_partitions_eq; destruct (Z.ltb_spec (prodZ pars) (2 ^ 31)) as [_|]; try lia; cbn [mbind option_bind].
  - destruct (Z.ltb_spec (prodZ pars) (Z.of_nat req)); [lia|]. exists pars. split_and!; try done; lia.
  - destruct (Z.ltb_spec (prodZ pars) (Z.of_nat req)).
    + destruct (prodZ_alter pars axis Hp Ha) as (r & E & Hr).
      destruct (IH (alter S axis pars)) as (pars' & -> & L & P & B); [by apply alter_pos|by rewrite alter_length|lia|lia|].
      exists pars'. rewrite alter_length in L. done.
    + exists pars. split_and!; try done; lia.
Qed.

Lemma longest_axis_from_bound best bestv i sh n : (best < n)%nat -> (i + length sh <= n)%nat -> (longest_axis_from best bestv i sh < n)%nat.
Proof. revert best bestv i. induction sh as [|s sh IH]; intros; simpl in *; [done|]. destruct (_ <? _)%nat; apply IH; lia. Qed.
Lemma longest_axis_bound sh : sh <> [] -> (longest_axis sh < length sh)%nat.
Proof. destruct sh as [|s sh]; [done|]. intros _. apply longest_axis_from_bound; simpl; lia. Qed.

Lemma prodZ_replicate n p : prodZ (replicate n p) = (Z.of_nat p ^ Z.of_nat n)%Z.
Proof.
  induction n as [|n IH]; [done|]. change (replicate (S n) p) with (p :: replicate n p). rewrite prodZ_cons, IH.
  rewrite Nat2Z.inj_succ, Z.pow_succ_r by lia. done.
Qed.

(** * Specification of sizes *)
(** The array is non-empty inside the padding, everything is below 2^64, chunk sizes are positive. *)
Definition sizes_ok (shape pre post cs : list nat) : Prop :=
  shape <> [] /\ length pre = length shape /\ length post = length shape /\ length cs = length shape /\
  forall i s a b c, shape !! i = Some s -> pre !! i = Some a -> post !! i = Some b -> cs !! i = Some c ->
    (a + b < s)%nat /\ (1 <= c)%nat /\ (Z.of_nat s < 2 ^ 64)%Z /\ (Z.of_nat c < 2 ^ 64)%Z.
(** The domain that is re-chunked: the array without its padding. *)
Definition domain_end (shape post : list nat) : list nat := vsub shape post.
(** [x] lies on the chunk grid that starts at [start], or on the upper border [e]. *)
Definition on_chunk_grid (start cs x : list nat) : Prop :=
  Forall2 (fun '(s, c) x => exists k, x = (s + k * c)%nat) (zip start cs) x.
Definition on_chunk_grid_or_end (start e cs x : list nat) : Prop :=
  Forall2 (fun '(s, f, c) x => x = f \/ exists k, x = (s + k * c)%nat) (zip (zip start e) cs) x.

Lemma partition_size_spec fuel p0 sh cs req :
  sh <> [] -> length cs = length sh -> Forall (fun n => (1 <= n)%nat /\ (Z.of_nat n < 2 ^ 64)%Z) sh ->
  Forall (fun n => (1 <= n)%nat /\ (Z.of_nat n < 2 ^ 64)%Z) cs ->
  (1 <= req <= fuel)%nat -> (2 * Z.of_nat req <= 2 ^ 31)%Z -> (1 <= p0)%nat -> (Z.of_nat p0 ^ Z.of_nat (length sh) < 2 ^ 31)%Z ->
  exists ps, get_partition_size fuel p0 sh cs req = Some ps /\ Forall2 (fun p c => exists m, (1 <= m)%nat /\ p = (m * c)%nat) ps cs.
Proof.
  intros Hne Hl Hsh Hcs Hreq Hreq2 Hp0 Hpow. unfold get_partition_size.
  destruct (grow_partitions_spec fuel (longest_axis sh) req (replicate (length sh) p0)) as (pars & -> & Lp & Pp & Bp).
  - done.
  - apply Forall_replicate. done.
  - rewrite replicate_length. by apply longest_axis_bound.
  - by rewrite prodZ_replicate.
  - assert (1 <= prodZ (replicate (length sh) p0))%Z; [|lia]. apply prodZ_pos. by apply Forall_replicate.
  - cbn [mbind option_bind]. eexists. split; [done|]. rewrite replicate_length in Lp.
    assert (Forall (fun n => Z.of_nat n <= 2 ^ 64)%Z pars) as Up.
    { destruct Bp as [_ Bp]. clear -Pp Bp. assert (prodZ pars < 2 ^ 64)%Z as B by lia. clear Bp. revert B.
      induction Pp as [|a l H Hs IH]; intros B; [constructor|]. rewrite prodZ_cons in B. pose proof (prodZ_pos _ Hs).
      constructor; [nia|apply IH; nia]. }
    clear Bp Hpow Hne. revert pars cs Lp Hl Pp Up Hcs. induction Hsh as [|s sh [Hs1 Hs2] Hsh IH]; intros [|p pars] [|c cs] Lp Hl Pp Up Hcs; try done; [constructor|].
    apply list.Forall_cons in Pp as [Pp0 Pp], Up as [Up0 Up], Hcs as [[Hc1 Hc2] Hcs]. cbn [zip_with]. constructor; [|apply IH; auto].
    exists (fceil_div (fceil_div s c) p). split; [|done].
    destruct (fceil_div_bounds s c) as [F1 F2]; [lia..|]. apply fceil_div_bounds; [done..|lia].
Qed.

(** * Distribution over jobs *)
Lemma bucket_perm {A} (c : A) (g : nat -> list A) t a n : (a <= t < a + n)%nat ->
  mjoin ((fun id => (if (t =? id)%nat then [c] else []) ++ g id) <$> seq a n) ≡ₚ c :: mjoin (g <$> seq a n).
Proof.
  revert a. induction n as [|n IH]; intros a H; [lia|]. cbn [seq]. rewrite !fmap_cons.
  change (mjoin (?x :: ?l)) with (x ++ mjoin l). destruct (Nat.eqb_spec t a) as [->|Hne].
  - cbn [app]. f_equiv. f_equiv. clear.
    assert (forall b, (a < b)%nat -> (fun id => (if (a =? id)%nat then [c] else []) ++ g id) <$> seq b n = g <$> seq b n) as ->; [|done|lia].
    induction n as [|n IH]; intros b Hb; [done|]. cbn [seq]. rewrite !fmap_cons, IH by lia. destruct (Nat.eqb_spec a b); [lia|]. done.
  - cbn [app]. rewrite IH by lia. by rewrite Permutation_middle.
Qed.
Lemma assigned_perm njobs num parts : (1 <= njobs)%nat ->
  mjoin ((fun id => assigned njobs id num parts) <$> seq 0 njobs) ≡ₚ parts.
Proof.
  intros Hn. revert num. induction parts as [|c parts IH]; intros num.
  - cbn [assigned]. induction (seq 0 njobs) as [|? l IHl]; [done|]. rewrite fmap_cons. exact IHl.
  - cbn [assigned]. rewrite (bucket_perm c (fun id => assigned njobs id (S num) parts) (num mod njobs)).
    + by rewrite IH.
    + pose proof (Nat.mod_upper_bound num njobs). lia.
Qed.
Lemma tiles_perm l1 l2 b e : l1 ≡ₚ l2 -> tiles l1 b e -> tiles l2 b e.
Proof.
  intros Hp (H1 & H2 & H3). split_and!.
  - intros c Hc. apply H1. by rewrite Hp.
  - intros c x Hc. apply H2. by rewrite Hp.
  - intros x Hx. destruct (H3 x Hx) as (k & c & Hk & Hc & Hu). pose proof Hp as Hp'.
    assert (c ∈ l2) as Hc2 by (rewrite <- Hp'; by eapply elem_of_list_lookup_2). apply elem_of_list_lookup in Hc2 as [k2 Hk2].
    exists k2, c. split; [done|]. split; [done|]. intros k' c' Hk' Hc'.
    symmetry in Hp'. apply Permutation_inj in Hp' as [_ (f & Hf & Hff)]. apply Hf.
    rewrite (Hu (f k2) c), (Hu (f k') c'); [done|by rewrite <- Hff|done|by rewrite <- Hff|done].
Qed.

(** * Chunk borders *)
Lemma steps_list_iff fuel b e cs s : (0 < cs)%nat -> (e - b <= fuel)%nat ->
  s ∈ steps_list fuel b e cs <-> exists k, (s.1 = b + k * cs /\ s.1 < e /\ s.2 = Nat.min (s.1 + cs) e)%nat.
Proof.
  intros Hcs Hf. split.
  - intros Hs. pose proof Hs as Hs'. apply steps_list_in in Hs'; [|done]. apply elem_of_list_lookup in Hs as [k Hk].
    apply steps_list_start in Hk as [E1 E2]; [|done]. exists k. lia.
  - intros (k & E1 & E2 & E3). destruct (steps_list_cover fuel b e cs s.1) as (k' & s' & Hk' & Hs'); [done|done|nia|].
    pose proof (elem_of_list_lookup_2 _ _ _ Hk') as Hin. apply steps_list_start in Hk' as [E1' E2']; [|done].
    assert (k = k').
    { destruct (Nat.lt_trichotomy k k') as [Hl|[->|Hl]]; [|done|]; exfalso.
      - assert ((k + 1) * cs <= k' * cs)%nat by (apply Nat.mul_le_mono_r; lia). lia.
      - assert ((k' + 1) * cs <= k * cs)%nat by (apply Nat.mul_le_mono_r; lia). lia. }
    subst k'. assert (s = s') as ->; [|done]. destruct s, s'; simpl in *. f_equal; lia.
Qed.

Lemma steps_nested fuel b e cs m s : (0 < cs)%nat -> (1 <= m)%nat -> (e <= fuel)%nat ->
  s ∈ steps_list fuel b e cs <-> exists p, p ∈ steps_list fuel b e (m * cs) /\ s ∈ steps_list fuel p.1 p.2 cs.
Proof.
  intros Hcs Hm Hf. rewrite steps_list_iff by lia. split.
  - intros (k & E1 & E2 & E3). pose proof (Nat.div_mod k m ltac:(lia)) as Ek. pose proof (Nat.mod_upper_bound k m ltac:(lia)) as Bk.
    set (q := (k / m)%nat) in *. set (j := (k mod m)%nat) in *.
    assert (k * cs = q * (m * cs) + j * cs)%nat as Ekc by (rewrite Ek; lia).
    assert ((j + 1) * cs <= m * cs)%nat as Hj by (apply Nat.mul_le_mono_r; lia).
    exists (b + q * (m * cs), Nat.min (b + q * (m * cs) + m * cs) e)%nat. split.
    + apply steps_list_iff; [nia|lia|]. exists q. cbn [fst snd]. lia.
    + cbn [fst snd]. apply steps_list_iff; [done|lia|]. exists j. lia.
  - intros (p & Hp & Hs). apply steps_list_iff in Hp as (q & P1 & P2 & P3); [|nia|lia].
    apply steps_list_iff in Hs as (j & S1 & S2 & S3); [|done|lia].
    exists (q * m + j)%nat.
    assert (j < m)%nat as Hj. { destruct (Nat.lt_ge_cases j m) as [|Hge]; [done|]. assert (m * cs <= j * cs)%nat by (apply Nat.mul_le_mono_r; lia). lia. }
    assert ((j + 1) * cs <= m * cs)%nat by (apply Nat.mul_le_mono_r; lia). lia.
Qed.

Lemma chunks_nested fuel b e cs ps c : length b = length e ->
  Forall2 (fun p c => exists m, (1 <= m)%nat /\ p = (m * c)%nat) ps cs -> Forall (fun c => 0 < c)%nat cs -> (loop_fuel e <= fuel)%nat ->
  c ∈ box_chunks fuel b e cs <-> exists p, p ∈ box_chunks fuel b e ps /\ c ∈ box_chunks fuel p.1 p.2 cs.
Proof.
  intros Hl Hps. revert b e c Hl. induction Hps as [|p0 c0 ps cs (m & Hm & ->) Hps IH]; intros b e c Hl Hpos Hf.
  - destruct b as [|b0 b], e as [|e0 e]; try done.
    + cbn [box_chunks]. split.
      * intros H. exists ([], []). split; [by left|]. done.
      * intros (p & Hp & Hc). apply elem_of_list_singleton in Hp as ->. done.
    + cbn [box_chunks]. split; [by intros ?%elem_of_nil|]. intros (p & Hp & _). by apply elem_of_nil in Hp.
  - apply list.Forall_cons in Hpos as [Hc0 Hpos]. destruct b as [|b0 b], e as [|e0 e]; try done.
    + cbn [box_chunks]. split; [by intros ?%elem_of_nil|]. intros (p & Hp & _). by apply elem_of_nil in Hp.
    + assert (e0 <= fuel /\ loop_fuel e <= fuel)%nat as [Hf0 Hf'] by (cbn in Hf; unfold loop_fuel; lia).
      rewrite box_chunks_elem. split.
      * intros (s & r & Hs & Hr & ->). apply (steps_nested fuel b0 e0 c0 m) in Hs as (p & Hp & Hs); [|done..].
        apply IH in Hr as (pr & Hpr & Hr); [|by injection Hl|done..].
        exists (p.1 :: pr.1, p.2 :: pr.2). split; [apply box_chunks_elem; by exists p, pr|]. cbn [fst snd]. apply box_chunks_elem. by exists s, r.
      * intros (p & Hp & Hc). apply box_chunks_elem in Hp as (q & pr & Hq & Hpr & ->). cbn [fst snd] in Hc.
        apply box_chunks_elem in Hc as (s & r & Hs & Hr & ->). exists s, r. split; [|split; [|done]].
        -- apply (steps_nested fuel b0 e0 c0 m); [done..|]. by exists q.
        -- apply IH; [by injection Hl|done..|]. by exists pr.
Qed.

Lemma chunks_on_grid fuel b e cs ps p : Forall2 (fun p c => exists m, (1 <= m)%nat /\ p = (m * c)%nat) ps cs -> Forall (fun c => 0 < c)%nat cs ->
  p ∈ box_chunks fuel b e ps -> on_chunk_grid b cs p.1 /\ on_chunk_grid_or_end b e cs p.2.
Proof.
  intros Hps. revert b e p. induction Hps as [|p0 c0 ps cs (m & Hm & ->) Hps IH]; intros [|b0 b] [|e0 e] p Hpos Hp; try (by apply elem_of_nil in Hp).
  - apply elem_of_list_singleton in Hp as ->. split; constructor.
  - apply list.Forall_cons in Hpos as [Hc0 Hpos]. apply box_chunks_elem in Hp as (s & r & Hs & Hr & ->). cbn [fst snd].
    apply IH in Hr as [H1 H2]; [|done]. apply elem_of_list_lookup in Hs as [k Hk]. apply steps_list_start in Hk as [E1 E2]; [|nia].
    split; cbn [zip zip_with]; (constructor; [|done]).
    + exists (k * m)%nat. lia.
    + destruct (Nat.min_spec (s.1 + m * c0) e0) as [[_ E]|[_ E]]; rewrite E in E2; [right; exists (k * m + m)%nat; lia|by left].
Qed.

(** * C39 *)
(** The work of all jobs together tiles the domain (so every element is processed exactly once, by one job); every
    partition starts on the chunk grid and ends on it or at the end of the domain; the output is placed relative to the
    start of the domain; and cutting the partitions of all jobs into chunks yields exactly the chunks of the domain. *)
Theorem C39_work_divided_exactly_once fuel p0 shape pre post cs njobs :
  sizes_ok shape pre post cs -> (1 <= njobs)%nat -> (2 * Z.of_nat njobs <= 2 ^ 31)%Z ->
  (1 <= p0)%nat -> (Z.of_nat p0 ^ Z.of_nat (length shape) < 2 ^ 31)%Z ->
  (njobs <= fuel)%nat -> (loop_fuel shape <= fuel)%nat ->
  exists work : nat -> list (list nat * list nat),
    (forall id, (id < njobs)%nat -> rechunk_job fuel p0 shape pre post cs njobs id = Some ((fun c => (c, vsub c.1 pre)) <$> work id)) /\
    tiles (mjoin (work <$> seq 0 njobs)) pre (domain_end shape post) /\
    (forall id c, (id < njobs)%nat -> c ∈ work id ->
       on_chunk_grid pre cs c.1 /\ on_chunk_grid_or_end pre (domain_end shape post) cs c.2) /\
    exists chunks, chunk_loop fuel pre (domain_end shape post) cs = Some chunks /\
      forall d, d ∈ chunks <-> exists id c sub, (id < njobs)%nat /\ c ∈ work id /\ chunk_loop fuel c.1 c.2 cs = Some sub /\ d ∈ sub.
Proof.
  intros (Hne & L1 & L2 & L3 & Hax) Hn Hn2 Hp0 Hpow Hf1 Hf2.
  set (rsh := zip_with Nat.sub (zip_with Nat.sub shape pre) post).
  assert (zip_with Nat.add pre rsh = domain_end shape post /\ length rsh = length shape /\
    Forall (fun n => (1 <= n)%nat /\ (Z.of_nat n < 2 ^ 64)%Z) rsh /\ Forall (fun n => (1 <= n)%nat /\ (Z.of_nat n < 2 ^ 64)%Z) cs /\
    Forall2 le (domain_end shape post) shape) as (Eend & Lr & Hr & Hcs & Hle).
  { unfold rsh, domain_end, vsub. clear -L1 L2 L3 Hax. revert pre post cs L1 L2 L3 Hax.
    induction shape as [|s sh IH]; intros [|a pre] [|b post] [|c cs] L1 L2 L3 Hax; try done.
    - split_and!; try done; constructor.
    - destruct (IH pre post cs) as (I1 & I2 & I3 & I4 & I5); [by injection L1|by injection L2|by injection L3|intros i; apply (Hax (S i))|].
      destruct (Hax 0%nat s a b c) as (H1 & H2 & H3 & H4); [done..|]. cbn [zip_with length].
      split_and!; [f_equal; [lia|done]|by f_equal|constructor; [lia|done]|constructor; [lia|done]|constructor; [lia|done]]. }
  assert (length pre = length (domain_end shape post)) as Ld. { apply Forall2_length in Hle. lia. }
  assert (Forall (fun c => 0 < c)%nat cs) as Hcs0 by (eapply list.Forall_impl; [exact Hcs|]; intros c [? ?]; lia).
  assert (loop_fuel (domain_end shape post) <= fuel)%nat as Hfe.
  { etrans; [|exact Hf2]. clear -Hle. unfold loop_fuel. induction Hle; simpl; lia. }
  destruct (partition_size_spec fuel p0 rsh cs njobs) as (ps & Hps & Hpm); try done; try lia; [unfold rsh in *; by intros E; rewrite E in Lr; destruct shape|
    rewrite Lr; lia|].
  assert (Forall (fun c => 0 < c)%nat ps) as Hps0.
  { clear -Hpm Hcs0. induction Hpm as [|p c ps cs (m & Hm & ->) Hpm IH]; [constructor|]. apply list.Forall_cons in Hcs0 as [? ?]. constructor; [nia|auto]. }
  assert (length ps = length (domain_end shape post)) as Lps. { apply Forall2_length in Hpm, Hle. lia. }
  set (parts := box_chunks fuel pre (domain_end shape post) ps).
  exists (fun id => assigned njobs id 0 parts).
  pose proof (assigned_perm njobs 0 parts Hn) as Hperm.
  assert (forall id c, (id < njobs)%nat -> c ∈ assigned njobs id 0 parts -> c ∈ parts) as Hsub.
  { intros id c Hid Hc. rewrite <- Hperm. apply elem_of_list_join. eexists. split; [exact Hc|]. apply elem_of_list_fmap. exists id. split; [done|].
    apply elem_of_seq. lia. }
  refine (conj _ (conj _ (conj _ _))).
  - intros id Hid. unfold rechunk_job. fold rsh. rewrite Hps. cbn [mbind option_bind]. rewrite Eend.
    rewrite chunk_loop_spec by (auto; lia). done.
  - eapply tiles_perm; [symmetry; exact Hperm|]. apply box_chunks_tiles; auto.
  - intros id c Hid Hc. eapply chunks_on_grid; [exact Hpm|done|]. by eapply Hsub.
  - exists (box_chunks fuel pre (domain_end shape post) cs). split; [apply chunk_loop_spec; auto; lia|].
    intros d. rewrite (chunks_nested fuel pre _ cs ps) by done. split.
    + intros (p & Hp & Hd). assert (p ∈ mjoin ((fun id => assigned njobs id 0 parts) <$> seq 0 njobs)) as Hp' by (rewrite Hperm; done).
      apply elem_of_list_join in Hp' as (l & Hpl & Hl). apply elem_of_list_fmap in Hl as (id & -> & Hid). apply elem_of_seq in Hid.
      apply box_chunks_sizes in Hp as (B1 & B2 & _ & _ & _ & B6); [|done].
      exists id, p, (box_chunks fuel p.1 p.2 cs). split; [lia|]. split; [done|]. split; [|done].
      apply chunk_loop_spec; auto; [lia|lia|]. etrans; [|exact Hfe]. clear -B6. unfold loop_fuel. induction B6; simpl; lia.
    + intros (id & p & sub & Hid & Hp & Hc & Hd). exists p. apply Hsub in Hp; [|done]. split; [done|].
      apply box_chunks_sizes in Hp as (B1 & B2 & _ & _ & _ & B6); [|done]. rewrite chunk_loop_spec in Hc; [by injection Hc as <-|lia|lia|done|].
      etrans; [|exact Hfe]. clear -B6. unfold loop_fuel. induction B6; simpl; lia.
Qed.
Print Assumptions C39_work_divided_exactly_once.

(** The hypotheses can be met: shape (12, 30, 100), padding, 5 jobs (with p0 = floor(5^(1/3)) = 1). *)
Example C39_nonvacuous :
  sizes_ok [12; 30; 100]%nat [1; 0; 2]%nat [0; 1; 1]%nat [4; 4; 8]%nat /\ (1 <= 5)%nat /\ (2 * Z.of_nat 5 <= 2 ^ 31)%Z /\
  (Z.of_nat 1 ^ Z.of_nat 3 < 2 ^ 31)%Z.
Proof.
  split; [|split_and!; lia]. split_and!; try done. intros [|[|[|i]]] s a b c; simpl; intros [= <-] [= <-] [= <-] [= <-]; lia.
Qed.
(** The distribution itself on a concrete list of partitions. *)
Example C39_assigned_example :
  (fun id => assigned 3 id 0 [([0], [2]); ([2], [4]); ([4], [6]); ([6], [7])]%nat) <$> [0; 1; 2]%nat =
  [[([0], [2]); ([6], [7])]; [([2], [4])]; [([4], [6])]]%nat.
Proof. reflexivity. Qed.
