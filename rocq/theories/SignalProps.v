(** C43 (the block-wise signal is the direct sum) and C44 (samples in all-null chunks). *)
From stdpp Require Import base sets list list_numbers numbers option.
From Coq Require Import Reals Lra Lia ZArith.
From Verif Require Import NDArrayModel NDArrayProofs NDArrayProps IndexSpec KernelModel KernelProps InterpModel InterpProps BBoxModel
  ChunkMetaModel ChunkMetaProps SignalModel.
Local Open Scope R_scope.

(** * Specification *)
(** A field in index coordinates (r, z, t) of the Green's function. *)
Notation field := (R -> R -> R -> R * R).
Definition dot (a b : R * R) : R := a.1 * b.1 + a.2 * b.2.
(** Distance from the axis, and the radial component of the vector [f] at [p]. *)
Definition radius (p : R * R * R) : R := sqrt (p.1.1 * p.1.1 + p.1.2 * p.1.2).
Definition radial (f p : R * R * R) : R :=
  if Rlt_dec 0 (radius p) then (f.1.1 * p.1.1 + f.1.2 * p.1.2) / radius p else 0.

(** Point [p] of [n] + 1 equidistant points along a segment, and its time. *)
Definition along (seg : segment) (n p : nat) : R * R * R :=
  let at_ a b := a + INR p / INR n * (b - a) in
  (at_ (s_start seg).1.1 (s_end seg).1.1, at_ (s_start seg).1.2 (s_end seg).1.2, at_ (s_start seg).2 (s_end seg).2).
Definition time_at (seg : segment) (n p : nat) : R := s_t0 seg + INR p / INR n * (s_t1 seg - s_t0 seg).
(** The current: charge times velocity. *)
Definition current (seg : segment) : R * R * R :=
  let v a b := s_charge seg * ((b - a) / (s_t1 seg - s_t0 seg)) in
  (v (s_start seg).1.1 (s_end seg).1.1, v (s_start seg).1.2 (s_end seg).1.2, v (s_start seg).2 (s_end seg).2).

(** Index coordinates of point [p], and of a delay. *)
Definition ind_r (G : green) (seg : segment) (n p : nat) : R := (radius (along seg n p) - (g_start G).1.1) / (g_interval G).1.1.
Definition ind_z (G : green) (seg : segment) (n p : nat) : R := ((along seg n p).2 - (g_start G).1.2) / (g_interval G).1.2.
Definition ind_t (G : green) (delay : R) : R := (delay - (g_start G).2) / (g_interval G).2.

(** What the segment adds to the signal at time [t]: the trapezoidal rule over its [n] intervals for minus the product of
    the field with the current, where only points whose time is not after [t] contribute. *)
Definition direct_sum (G : green) (E : field) (seg : segment) (n : nat) (weight t : R) : R :=
  sum (n + 1) (fun p =>
    if Rle_dec (time_at seg n p) t then
      trapezoid (n + 1) p * ((s_t1 seg - s_t0 seg) / INR n) * weight * (-1) *
      dot (E (ind_r G seg n p) (ind_z G seg n p) (ind_t G (t - time_at seg n p)))
          (radial (current seg) (along seg n p), (current seg).2)
    else 0).

(** [f j] added to element [j]. *)
Definition plus_at (signal : list R) (f : nat -> R) : list R := imap (fun j y => y + f j) signal.

(** The cell of a coordinate. *)
Definition cell (x : R) (i : nat) : Prop := INR i <= x < INR i + 1.
(** The chunk found for a point. *)
Definition found (G : green) (r z t : R) (m : option chunk_meta) : Prop :=
  exists ir iz it, cell r ir /\ cell z iz /\ cell t it /\ g_chunk G [N.of_nat ir; N.of_nat iz; N.of_nat it] = m.
Definition pairs (l : list (R * R)) : list (list R) := (fun v => [v.1; v.2]) <$> l.

(** The point is in a specified chunk with enough overlap, and interpolation in this chunk gives the field [E], up to the end
    of the chunk, for at most [rem] samples. *)
Definition covered (G : green) (K : kernel) (E : field) (rem : nat) (ts r z t : R) : Prop :=
  exists m end_t, found G r z t (Some m) /\ cm_type m = specified /\ (k_support K <= N.to_nat (cm_overlap m))%nat /\
    cm_end m !! 2%nat = Some end_t /\ t <= INR (N.to_nat end_t) /\
    forall n, (n <= rem)%nat -> (n = 0%nat \/ t + INR (n - 1) * ts <= INR (N.to_nat end_t)) ->
      chunk_samples G K m r z t ts n = Some (pairs ((fun s => E r z (t + INR s * ts)) <$> seq 0 n)).
(** The point is in an all-null chunk (or outside of all chunks, if this is to be ignored), and the field is zero. *)
Definition blank (G : green) (K : kernel) (ignore : bool) (E : field) (r z t : R) : Prop :=
  E r z t = (0, 0) /\
  ((ignore = true /\ found G r z t None) \/
   exists m end_t, found G r z t (Some m) /\ cm_type m <> specified /\ (k_support K <= N.to_nat (cm_overlap m))%nat /\
     cm_end m !! 2%nat = Some end_t /\ t <= INR (N.to_nat end_t)).

(** * Proofs *)
Lemma plus_at_length s f : length (plus_at s f) = length s.
Proof. unfold plus_at. apply imap_length. Qed.
Lemma plus_at_ext s f g : (forall j, (j < length s)%nat -> f j = g j) -> plus_at s f = plus_at s g.
Proof.
  intros H. unfold plus_at. apply list_eq. intros j. rewrite !list_lookup_imap. destruct (s !! j) as [y|] eqn:Hj; [|done].
  simpl. rewrite H; [done|]. by eapply lookup_lt_Some.
Qed.
Lemma plus_at_0 s : plus_at s (fun _ => 0) = s.
Proof. unfold plus_at. apply list_eq. intros j. rewrite !list_lookup_imap. destruct (s !! j) as [y|]; [|done]. simpl. f_equal. lra. Qed.
Lemma plus_at_plus s f g : plus_at (plus_at s f) g = plus_at s (fun j => f j + g j).
Proof. unfold plus_at. apply list_eq. intros j. rewrite !list_lookup_imap. destruct (s !! j) as [y|]; [|done]. simpl. f_equal. lra. Qed.
Lemma bump_spec s pos x : (pos < length s)%nat -> bump s pos x = Some (plus_at s (fun j => if (j =? pos)%nat then x else 0)).
Proof.
  intros Hp. unfold bump. destruct (lookup_lt_is_Some_2 _ _ Hp) as [y Hy]. rewrite Hy. cbn [mbind option_bind]. f_equal.
  unfold plus_at. apply list_eq. intros j. rewrite list_lookup_imap. destruct (decide (j = pos)) as [->|Hne].
  - rewrite list_lookup_insert, Hy by done. simpl. by rewrite Nat.eqb_refl.
  - rewrite list_lookup_insert_ne by done. destruct (s !! j); [|done]. simpl. destruct (Nat.eqb_spec j pos); [done|]. f_equal. lra.
Qed.

Lemma Int_part_cell x i : cell x i -> Int_part x = Z.of_nat i.
Proof.
  intros [H1 H2]. unfold Int_part. assert (up x = (Z.of_nat i + 1)%Z) as ->; [|lia].
  symmetry. apply tech_up; rewrite plus_IZR, <- INR_IZR_INZ; simpl; lra.
Qed.
Lemma to_size_cell x i : cell x i -> to_size x = Some i.
Proof.
  intros Hc. unfold to_size. pose proof (pos_INR i). destruct (Rlt_dec (-1) x) as [_|n].
  - by rewrite (Int_part_cell _ _ Hc), Nat2Z.id.
  - destruct n. destruct Hc. lra.
Qed.
Lemma cell_exists x : 0 <= x -> exists i, cell x i.
Proof.
  intros Hx. pose proof (base_Int_part x) as [H1 H2]. exists (Z.to_nat (Int_part x)).
  assert (0 <= Int_part x)%Z. { assert (-1 < Int_part x)%Z; [|lia]. apply lt_IZR. lra. }
  unfold cell. rewrite INR_IZR_INZ, Z2Nat.id by done. lra.
Qed.

(** One accumulation loop. *)
Lemma add_loop (buf : list (list R)) (vs : list (R * R)) src weight :
  forall k s0 signal pos, (k + s0 = length vs)%nat -> buf = pairs vs -> (pos + k <= length signal)%nat ->
  foldM (fun '(signal, pos) i =>
              v ← buf !! i; x ← inner v src;
              signal ← bump signal pos (x * weight); Some (signal, S pos)) (signal, pos) (seq s0 k)
  = Some (plus_at signal (fun j => if ((pos <=? j) && (j <? pos + k))%nat then dot (nth (s0 + (j - pos)) vs (0,0)) src * weight else 0), (pos + k)%nat).
Proof.
  intros k s0 signal pos Hlen -> . revert s0 signal pos Hlen. induction k as [|k IH]; intros s0 signal pos Hlen Hp.
  - simpl. do 2 f_equal; [|lia]. rewrite <- (plus_at_0 signal) at 1. apply plus_at_ext. intros j _. destruct (Nat.leb_spec pos j), (Nat.ltb_spec j (pos + 0)); simpl; [lia|done..].
  - cbn [seq foldM]. destruct (lookup_lt_is_Some_2 vs s0 ltac:(lia)) as [v Hv].
    assert (pairs vs !! s0 = Some [v.1; v.2]) as -> by (unfold pairs; by rewrite list_lookup_fmap, Hv). cbn [mbind option_bind].
    assert (inner [v.1; v.2] src = Some (v.1 * src.1 + v.2 * src.2)) as -> by done. cbn [mbind option_bind]. rewrite bump_spec by lia. cbn [mbind option_bind].
    rewrite IH by (rewrite ?plus_at_length; lia). do 2 f_equal; [|lia]. rewrite plus_at_plus. apply plus_at_ext. intros j Hj.
    destruct (Nat.eqb_spec j pos) as [->|Hne].
    + rewrite (proj2 (Nat.leb_gt (S pos) pos)) by lia. rewrite Nat.leb_refl, (proj2 (Nat.ltb_lt pos (pos + S k))) by lia. simpl.
      rewrite Nat.sub_diag, Nat.add_0_r. rewrite (nth_lookup_Some _ _ _ _ Hv). unfold dot. lra.
    + destruct (Nat.leb_spec (S pos) j), (Nat.leb_spec pos j), (Nat.ltb_spec j (S pos + k)), (Nat.ltb_spec j (pos + S k)); simpl; try lia; try lra.
      replace (S (s0 + (j - S pos)))%nat with (s0 + (j - pos))%nat by lia. lra.
Qed.

Lemma count_bound ts e t c : 0 < ts -> t <= e -> cell ((e - t) / ts) c -> t + INR c * ts <= e.
Proof.
  intros Hts Hte [H _]. apply (Rmult_le_compat_r ts) in H; [|lra]. replace ((e - t) / ts * ts) with (e - t) in H by (field; lra). lra.
Qed.

Lemma loop_spec G K ignore E fr fz ft ts n src weight c0 :
  0 < ts ->
  (forall j, (c0 <= j < n)%nat -> covered G K E (n - j) ts fr fz (ft + INR j * ts) \/
     (forall k, (j <= k < n)%nat -> blank G K ignore E fr fz (ft + INR k * ts))) ->
  forall fuel cur pos signal, (c0 <= cur)%nat -> (n - cur <= fuel)%nat -> (pos + (n - cur) <= length signal)%nat ->
  accumulate_loop G K ignore fr fz ft ts n src weight fuel cur pos signal
  = Some (plus_at signal (fun j => if ((pos <=? j) && (j <? pos + (n - cur)))%nat
       then dot (E fr fz (ft + INR (cur + (j - pos)) * ts)) src * weight else 0)).
Proof.
  intros Hts Hcov.
  (* once the field is blank, nothing changes *)
  assert (forall fuel cur pos signal, (n - cur <= fuel)%nat -> (cur < n)%nat -> (forall k, (cur <= k < n)%nat -> blank G K ignore E fr fz (ft + INR k * ts)) ->
     accumulate_loop G K ignore fr fz ft ts n src weight fuel cur pos signal = Some signal) as Hblank.
  { induction fuel as [|fuel IH]; intros cur pos signal Hf Hcn Hb; [lia|]. cbn [accumulate_loop].
    rewrite (proj2 (Nat.leb_gt n cur)) by done. destruct (Hb cur ltac:(lia)) as (_ & [[-> Hfd] | (m & e & Hfd & Hty & Hov & He & Hte)]).
    all: destruct Hfd as (ir & iz & it & Hr & Hz & Ht & Hm); rewrite (to_size_cell _ _ Hr), (to_size_cell _ _ Hz), (to_size_cell _ _ Ht);
      cbn [mbind option_bind]; rewrite Hm.
    1: done.
    rewrite (proj2 (Nat.ltb_ge _ _)) by done. rewrite He. cbn [mbind option_bind]. destruct (Req_EM_T ts 0); [lra|].
    destruct (cell_exists ((INR (N.to_nat e) - (ft + INR cur * ts)) / ts)) as [c Hc]. { apply Rmult_le_pos; [lra|]. left. by apply Rinv_0_lt_compat. }
    rewrite (to_size_cell _ _ Hc). cbn [mbind option_bind]. pose proof (count_bound _ _ _ _ Hts Hte Hc) as Hcb.
    set (req := Nat.min (c + 1) (n - cur)). assert (INR (req - 1) <= INR c) as Hle by (apply le_INR; lia).
    apply (Rmult_le_compat_r ts) in Hle; [|lra].
    destruct (Rle_dec (ft + INR cur * ts + INR (req - 1) * ts) (INR (N.to_nat e))); [|lra].
    rewrite (proj2 (N.eqb_neq _ _)) by done. cbn [mbind option_bind]. destruct (decide (cur + req < n)%nat).
    - apply IH; [unfold req in *; lia|done|]. intros k Hk. apply Hb. lia.
    - destruct fuel; cbn [accumulate_loop]; rewrite (proj2 (Nat.leb_le n (cur + req))) by lia; done. }
  induction fuel as [|fuel IH]; intros cur pos signal Hc0 Hf Hp.
  { cbn [accumulate_loop]. rewrite (proj2 (Nat.leb_le n cur)) by lia. f_equal. rewrite <- (plus_at_0 signal) at 1. apply plus_at_ext. intros j _.
    destruct (Nat.leb_spec pos j), (Nat.ltb_spec j (pos + (n - cur))); simpl; [lia|done..]. }
  destruct (decide (n <= cur)%nat) as [Hle|Hgt].
  { cbn [accumulate_loop]. rewrite (proj2 (Nat.leb_le n cur)) by lia. f_equal. rewrite <- (plus_at_0 signal) at 1. apply plus_at_ext. intros j _.
    destruct (Nat.leb_spec pos j), (Nat.ltb_spec j (pos + (n - cur))); simpl; [lia|done..]. }
  destruct (Hcov cur) as [Hc|Hb]; [lia| |].
  2:{ rewrite Hblank by (done || lia). f_equal. rewrite <- (plus_at_0 signal) at 1. apply plus_at_ext. intros j _.
      destruct (Nat.leb_spec pos j), (Nat.ltb_spec j (pos + (n - cur))); simpl; try done.
      assert (E fr fz (ft + INR (cur + (j - pos)) * ts) = (0, 0)) as ->; [|unfold dot; simpl; lra].
      apply Hb. lia. }
  destruct Hc as (m & e & Hfd & Hty & Hov & He & Hte & Hdata). destruct Hfd as (ir & iz & it & Hr & Hz & Ht & Hm).
  cbn [accumulate_loop]. rewrite (proj2 (Nat.leb_gt n cur)) by lia.
  rewrite (to_size_cell _ _ Hr), (to_size_cell _ _ Hz), (to_size_cell _ _ Ht). cbn [mbind option_bind]. rewrite Hm.
  rewrite (proj2 (Nat.ltb_ge _ _)) by done. rewrite He. cbn [mbind option_bind]. destruct (Req_EM_T ts 0); [lra|].
  destruct (cell_exists ((INR (N.to_nat e) - (ft + INR cur * ts)) / ts)) as [c Hc]. { apply Rmult_le_pos; [lra|]. left. by apply Rinv_0_lt_compat. }
  rewrite (to_size_cell _ _ Hc). cbn [mbind option_bind]. pose proof (count_bound _ _ _ _ Hts Hte Hc) as Hb.
  set (req := Nat.min (c + 1) (n - cur)). assert (INR (req - 1) <= INR c) as Hle by (apply le_INR; lia).
  apply (Rmult_le_compat_r ts) in Hle; [|lra].
  destruct (Rle_dec (ft + INR cur * ts + INR (req - 1) * ts) (INR (N.to_nat e))); [|lra].
  rewrite Hty, N.eqb_refl. rewrite (Hdata req) by (unfold req; lia || (right; done)). cbn [mbind option_bind].
  set (vs := (fun s => E fr fz (ft + INR cur * ts + INR s * ts)) <$> seq 0 req).
  assert (length vs = req) as Hvl by (unfold vs; by rewrite fmap_length, seq_length).
  rewrite (add_loop (pairs vs) vs src weight req 0 signal pos); [|lia|done|unfold req; lia]. cbn [mbind option_bind].
  rewrite IH by (rewrite ?plus_at_length; unfold req; lia). f_equal. rewrite plus_at_plus. apply plus_at_ext. intros j Hj.
  assert (req <= n - cur)%nat by (unfold req; lia).
  destruct (Nat.leb_spec pos j) as [Hpj|Hpj]; simpl.
  2:{ rewrite (proj2 (Nat.leb_gt (pos + req) j)) by lia. simpl. lra. }
  destruct (Nat.ltb_spec j (pos + req)) as [Hj2|Hj2].
  - rewrite (proj2 (Nat.leb_gt (pos + req) j)) by lia. rewrite (proj2 (Nat.ltb_lt j (pos + (n - cur)))) by lia. simpl.
    assert (vs !! (j - pos)%nat = Some (E fr fz (ft + INR (cur + (j - pos)) * ts))) as Hv.
    { unfold vs. rewrite list_lookup_fmap, lookup_seq_lt by lia. cbn [fmap option_fmap option_map]. do 2 f_equal. rewrite Nat.add_0_l, plus_INR. lra. }
    rewrite (nth_lookup_Some _ _ _ _ Hv). lra.
  - rewrite (proj2 (Nat.leb_le (pos + req) j)) by lia. replace (pos + req + (n - (cur + req)))%nat with (pos + (n - cur))%nat by lia.
    replace (cur + req + (j - (pos + req)))%nat with (cur + (j - pos))%nat by lia. simpl. destruct (j <? pos + (n - cur))%nat; lra.
Qed.

(** Blocks. *)
Lemma foldM_plus {B} (f : list R -> B -> option (list R)) (h : B -> nat -> R) L (l : list B) signal :
  (forall s x, x ∈ l -> length s = L -> f s x = Some (plus_at s (h x))) -> length signal = L ->
  foldM f signal l = Some (plus_at signal (fun j => Rsum ((fun x => h x j) <$> l))).
Proof.
  revert signal. induction l as [|x l IH]; intros signal Hf HL.
  - cbn [foldM]. f_equal. symmetry. apply plus_at_0.
  - cbn [foldM]. rewrite Hf by (done || set_solver). cbn [mbind option_bind].
    rewrite IH; [|set_solver|by rewrite plus_at_length]. f_equal. rewrite plus_at_plus. by apply plus_at_ext.
Qed.
Lemma loop_break_plus (f : list R -> nat -> option (list R + list R)) (h : nat -> nat -> R) (stop : nat -> Prop) L k a signal :
  (forall x, stop x \/ ~ stop x) ->
  (forall s x, (a <= x < a + k)%nat -> length s = L -> ~ stop x -> f s x = Some (inl (plus_at s (h x)))) ->
  (forall s x, (a <= x < a + k)%nat -> stop x -> f s x = Some (inr s)) ->
  (forall x y j, stop x -> (a <= x)%nat -> (x <= y < a + k)%nat -> h y j = 0) -> length signal = L ->
  loop_break f signal (seq a k) = Some (plus_at signal (fun j => Rsum ((fun x => h x j) <$> seq a k))).
Proof.
  intros Hdec. revert a signal. induction k as [|k IH]; intros a signal H1 H2 H3 HL.
  - cbn [seq loop_break]. f_equal. symmetry. apply plus_at_0.
  - cbn [seq loop_break]. destruct (Hdec a) as [Hs|Hs].
    + rewrite H2 by (done || lia). cbn [mbind option_bind]. f_equal. rewrite <- (plus_at_0 signal) at 1. apply plus_at_ext. intros j _.
      change (a :: seq (S a) k) with (seq a (S k)). assert (forall l, (forall x, x ∈ l -> h x j = 0) -> Rsum ((fun x => h x j) <$> l) = 0) as ->.
      { induction l as [|x l IHl]; intros Hl; [done|]. rewrite list.fmap_cons, Rsum_cons, Hl by set_solver. rewrite IHl by set_solver. lra. }
      * done.
      * intros x Hx%elem_of_seq. apply (H3 a); [done|lia|lia].
    + rewrite H1 by (done || lia). cbn [mbind option_bind]. rewrite IH.
      * f_equal. rewrite plus_at_plus. by apply plus_at_ext.
      * intros. apply H1; [lia|done..].
      * intros. apply H2; [lia|done].
      * intros x y j Hx Hy1 Hy. apply (H3 x); [done|lia|lia].
      * by rewrite plus_at_length.
Qed.

Lemma sum_sample_blocks fuel s n B (v : R) j : (1 <= B)%nat -> (n - s <= fuel)%nat ->
  Rsum ((fun b => if ((b <=? j) && (j <? Nat.min (b + B) n))%nat then v else 0) <$> starts fuel s n B)
  = if ((s <=? j) && (j <? n))%nat then v else 0.
Proof.
  intros HB. revert s. induction fuel as [|fuel IH]; intros s Hf.
  - simpl. destruct (Nat.leb_spec s j), (Nat.ltb_spec j n); simpl; try done; lia.
  - cbn [starts]. destruct (Nat.ltb_spec s n).
    + rewrite list.fmap_cons, Rsum_cons, IH by lia.
      destruct (Nat.leb_spec s j), (Nat.ltb_spec j n), (Nat.ltb_spec j (Nat.min (s + B) n)), (Nat.leb_spec (s + B) j); simpl; try lia; lra.
    + simpl. destruct (Nat.leb_spec s j), (Nat.ltb_spec j n); simpl; try done; lia.
Qed.
Lemma sum_itgr_blocks fuel s n B (f : nat -> R) : (1 <= B)%nat -> (n - s <= fuel)%nat ->
  Rsum ((fun b => Rsum ((fun i => f (i + b)%nat) <$> seq 0 (Nat.min B (n - b)))) <$> starts fuel s n B) = Rsum (f <$> seq s (n - s)).
Proof.
  intros HB. revert s. induction fuel as [|fuel IH]; intros s Hf.
  - replace (n - s)%nat with 0%nat by lia. done.
  - cbn [starts]. destruct (Nat.ltb_spec s n).
    + rewrite list.fmap_cons, Rsum_cons, IH by lia. destruct (Nat.le_gt_cases B (n - s)).
      * rewrite Nat.min_l by done. replace (n - s)%nat with (B + (n - (s + B)))%nat by lia.
        rewrite seq_app, fmap_app, Rsum_app. f_equal.
        rewrite (sum_shift s B f). unfold sum. f_equal. apply list_fmap_ext. intros. f_equal. lia.
      * rewrite Nat.min_r by lia. replace (n - (s + B))%nat with 0%nat by lia. cbn [seq fmap list_fmap Rsum foldr]. rewrite Rplus_0_r.
        rewrite (sum_shift s (n - s) f). unfold sum. f_equal. apply list_fmap_ext. intros. f_equal. lia.
    + replace (n - s)%nat with 0%nat by lia. done.
Qed.
Lemma starts_spec fuel s n B b : b ∈ starts fuel s n B -> (b < n)%nat.
Proof.
  revert s. induction fuel as [|fuel IH]; intros s; cbn [starts]; [set_solver|]. destruct (Nat.ltb_spec s n); [|set_solver].
  intros [->|H']%elem_of_cons; [done|]. by eapply IH.
Qed.
Lemma Rsum_swap {A B} (f : A -> B -> R) (l : list A) (k : list B) :
  Rsum ((fun a => Rsum ((fun b => f a b) <$> k)) <$> l) = Rsum ((fun b => Rsum ((fun a => f a b) <$> l)) <$> k).
Proof.
  induction l as [|a l IH].
  - induction k as [|b k IHk]; [done|]. rewrite list.fmap_cons, Rsum_cons, <- IHk. simpl. lra.
  - rewrite list.fmap_cons, Rsum_cons, IH. clear. induction k as [|b k IH]; [simpl; lra|]. rewrite !list.fmap_cons, !Rsum_cons, <- IH. lra.
Qed.

Lemma ceiling_spec x : IZR (ceiling x) - 1 < x <= IZR (ceiling x).
Proof. unfold ceiling. rewrite opp_IZR. pose proof (base_Int_part (- x)). lra. Qed.
Lemma ceiling_unique x z : IZR z - 1 < x <= IZR z -> ceiling x = z.
Proof.
  intros H. pose proof (ceiling_spec x) as H'.
  assert (IZR z < IZR (ceiling x + 1)) by (rewrite plus_IZR; simpl; lra). assert (IZR (ceiling x) < IZR (z + 1)) by (rewrite plus_IZR; simpl; lra).
  pose proof (lt_IZR _ _ H0). pose proof (lt_IZR _ _ H1). lia.
Qed.
Lemma field_cyl_eq f p : field_cyl f p = (radial f p, f.2).
Proof.
  destruct f as [[fx fy] fz], p as [[x y] z]. unfold field_cyl, radial, radius. simpl.
  destruct (Rlt_dec 0 (sqrt (x * x + y * y))); [|f_equal; lra]. f_equal. field. lra.
Qed.
Lemma coord_cyl_eq p : coord_cyl p = (radius p, p.2).
Proof. by destruct p as [[x y] z]. Qed.

(** Point, time and current as the code computes them. *)
Lemma along_eq seg n p : s_t0 seg < s_t1 seg -> (1 <= n)%nat ->
  vplus (s_start seg) (vscale (INR p) (vscale ((s_t1 seg - s_t0 seg) / INR n)
     (vscale (/ (s_t1 seg - s_t0 seg)) (vplus (s_end seg) (vscale (-1) (s_start seg)))))) = along seg n p.
Proof.
  intros Ht Hn. assert (0 < INR n) by (apply lt_0_INR; lia). unfold along. destruct (s_start seg) as [[a b] c], (s_end seg) as [[a' b'] c'].
  simpl. f_equal; [f_equal|]; field; lra.
Qed.
Lemma current_eq seg : s_t0 seg < s_t1 seg ->
  vscale (s_charge seg) (vscale (/ (s_t1 seg - s_t0 seg)) (vplus (s_end seg) (vscale (-1) (s_start seg)))) = current seg.
Proof.
  intros Ht. unfold current. destruct (s_start seg) as [[a b] c], (s_end seg) as [[a' b'] c'].
  simpl. f_equal; [f_equal|]; field; lra.
Qed.
Lemma time_eq seg n p : (1 <= n)%nat -> INR p * ((s_t1 seg - s_t0 seg) / INR n) + s_t0 seg = time_at seg n p.
Proof. intros Hn. assert (0 < INR n) by (apply lt_0_INR; lia). unfold time_at. field. lra. Qed.

Section signal.
Context (ib sb : nat) (G : green) (K : kernel) (ignore : bool) (E : field) (seg : segment) (t0 samp weight : R) (num n : nat).
Context (Hib : (1 <= ib)%nat) (Hsb : (1 <= sb)%nat) (Hsamp : 0 < samp).
Context (Hint : (g_interval G).1.1 <> 0 /\ (g_interval G).1.2 <> 0 /\ 0 < (g_interval G).2).
Context (Hn : INR n - 1 < s_t1 seg - s_t0 seg <= INR n) (Hseg : s_t0 seg < s_t1 seg).
Context (Hrange : forall p, (p <= n)%nat -> - (2 ^ 31) <= (time_at seg n p - t0) / samp <= 2 ^ 31 - 1).
Context (Hcov : forall p j, (p <= n)%nat -> (j < num)%nat -> time_at seg n p <= t0 + INR j * samp ->
    covered G K E (num - j) (samp / (g_interval G).2) (ind_r G seg n p) (ind_z G seg n p) (ind_t G (t0 + INR j * samp - time_at seg n p)) \/
    forall k, (j <= k < num)%nat -> blank G K ignore E (ind_r G seg n p) (ind_z G seg n p) (ind_t G (t0 + INR k * samp - time_at seg n p))).

Definition term (p j : nat) : R :=
  if Rle_dec (time_at seg n p) (t0 + INR j * samp) then
      trapezoid (n + 1) p * ((s_t1 seg - s_t0 seg) / INR n) * weight * (-1) *
      dot (E (ind_r G seg n p) (ind_z G seg n p) (ind_t G (t0 + INR j * samp - time_at seg n p)))
          (radial (current seg) (along seg n p), (current seg).2)
  else 0.

Lemma n_pos : (1 <= n)%nat.
Proof. destruct n; [simpl in Hn; lra|lia]. Qed.

(** First sample that a point contributes to. *)
Lemma causal_spec p : (p <= n)%nat -> exists c, to_int (ceiling ((time_at seg n p - t0) / samp)) = Some c /\ forall j, time_at seg n p <= t0 + INR j * samp <-> (Z.to_nat (Z.max 0 c) <= j)%nat.
Proof.
  intros Hp. set (x := (time_at seg n p - t0) / samp). pose proof (ceiling_spec x) as Hc. pose proof (Hrange p Hp) as Hr. fold x in Hr.
  exists (ceiling x). split.
  - unfold to_int. assert (- 2 ^ 31 <= ceiling x < 2 ^ 31)%Z as [H1 H2].
    { split; [apply le_IZR|apply lt_IZR]; [rewrite opp_IZR|]; replace (IZR (2 ^ 31)) with (2 ^ 31) by (simpl; lra); [lra|].
      assert (IZR (ceiling x) <= 2 ^ 31 - 1); [|lra].
      assert (ceiling x < 2 ^ 31)%Z; [apply lt_IZR; replace (IZR (2 ^ 31)) with (2 ^ 31) by (simpl; lra); lra|].
      apply Zlt_le_succ, Z.lt_succ_r in H. assert (ceiling x <= 2 ^ 31 - 1)%Z by lia. apply IZR_le in H0.
      rewrite minus_IZR in H0. replace (IZR (2 ^ 31)) with (2 ^ 31) in H0 by (simpl; lra). lra. }
    rewrite (proj2 (Z.leb_le _ _) H1), (proj2 (Z.ltb_lt _ _) H2). done.
  - intros j. assert (time_at seg n p = t0 + x * samp) as -> by (unfold x; field; lra). split.
    + intros Hj. assert (x <= INR j) as Hxj. { apply Rmult_le_reg_r with samp; [done|]. lra. }
      assert (ceiling x <= Z.of_nat j)%Z; [|lia].
      assert (ceiling x < Z.of_nat j + 1)%Z; [|lia]. apply lt_IZR. rewrite plus_IZR, <- INR_IZR_INZ. simpl. lra.
    + intros Hj. assert (ceiling x <= Z.of_nat j)%Z as Hz by lia. apply IZR_le in Hz. rewrite <- INR_IZR_INZ in Hz.
      assert (x <= INR j) as Hxj by lra. apply (Rmult_le_compat_r samp) in Hxj; lra.
Qed.

Lemma point_spec p first k w signal :
  (p <= n)%nat -> (first + k <= num)%nat -> (first + k <= length signal)%nat -> time_at seg n p <= t0 + INR first * samp ->
  accumulate_inner_product G K ignore (coord_cyl (along seg n p)) (INR first * samp + t0 - time_at seg n p) samp k
    (field_cyl (current seg) (along seg n p)) first w signal
  = Some (plus_at signal (fun j => if ((first <=? j) && (j <? first + k))%nat then
      dot (E (ind_r G seg n p) (ind_z G seg n p) (ind_t G (t0 + INR j * samp - time_at seg n p)))
          (radial (current seg) (along seg n p), (current seg).2) * w else 0)).
Proof.
  intros Hp Hk Hl Ht. unfold accumulate_inner_product, ind_r, ind_z, ind_t in *. rewrite coord_cyl_eq, field_cyl_eq.
  destruct (g_start G) as [[r0 z0] tt0] eqn:Hgs, (g_interval G) as [[dr dz] dt] eqn:Hgi. cbn [fst snd] in *. destruct Hint as (Hr & Hz & Hdt).
  destruct (Req_EM_T dr 0); [done|]. destruct (Req_EM_T dz 0); [done|]. destruct (Req_EM_T dt 0); [lra|].
  assert (forall i, (INR first * samp + t0 - time_at seg n p - tt0) / dt + INR i * (samp / dt)
       = (t0 + INR (first + i) * samp - time_at seg n p - tt0) / dt) as Hshift by (intros i; rewrite plus_INR; field; lra).
  rewrite (loop_spec G K ignore E _ _ _ _ _ _ _ 0).
  - f_equal. rewrite Nat.sub_0_r. apply plus_at_ext. intros j _. destruct (Nat.leb_spec first j); [|done]. cbn [andb].
    rewrite Nat.add_0_l, Hshift. replace (first + (j - first))%nat with j by lia. done.
  - apply Rmult_lt_0_compat; [done|]. by apply Rinv_0_lt_compat.
  - intros j Hj. rewrite Hshift. destruct (Hcov p (first + j)) as [Hc|Hb]; [lia|lia| | |].
    + rewrite plus_INR. pose proof (pos_INR j). assert (0 <= INR j * samp) by (apply Rmult_le_pos; lra). lra.
    + left. destruct Hc as (m & e & C1 & C2 & C3 & C4 & C5 & C6). exists m, e. split_and!; try done. intros n' Hn'. apply C6. lia.
    + right. intros k' Hk'. rewrite Hshift. apply Hb. lia.
  - lia.
  - lia.
  - lia.
Qed.

Lemma apply_spec signal : (num <= length signal)%nat ->
  apply_accumulate ib sb G K ignore seg t0 samp num weight signal
  = Some (plus_at signal (fun j => if (j <? num)%nat then direct_sum G E seg n weight (t0 + INR j * samp) else 0)).
Proof.
  intros Hnum. pose proof n_pos as Hn1. unfold apply_accumulate.
  assert (ceiling ((s_t1 seg - s_t0 seg) / 1) = Z.of_nat n) as ->.
  { apply ceiling_unique. rewrite <- INR_IZR_INZ. lra. }
  rewrite (to_size_cell _ n) by (unfold cell; rewrite <- INR_IZR_INZ; lra). cbn [mbind option_bind].
  rewrite (proj2 (Nat.eqb_neq n 0)) by lia. destruct (Req_EM_T samp 0); [lra|]. cbv zeta.
  set (h := fun blk j => Rsum ((fun i => if (j <? num)%nat then term (i + blk) j else 0) <$> seq 0 (Nat.min ib (n + 1 - blk)))).
  rewrite (foldM_plus _ h (length signal)); [| |done].
  { f_equal. apply plus_at_ext. intros j _. unfold h. rewrite (sum_itgr_blocks _ _ _ _ (fun p => if (j <? num)%nat then term p j else 0)) by lia.
    rewrite Nat.sub_0_r. unfold direct_sum, sum, term. destruct (j <? num)%nat; [done|].
    generalize (seq 0 (n + 1)). induction l as [|a l IH]; [done|]. rewrite list.fmap_cons, Rsum_cons, IH. lra. }
  intros s blk Hblk%starts_spec Hs. rewrite current_eq by done.
  set (size := Nat.min ib (n + 1 - blk)).
  replace size with (blk + size - blk)%nat at 2 by lia. rewrite fill_weights_spec by (unfold size; lia). cbn [mbind option_bind].
  replace (blk + size - blk)%nat with size by lia.
  set (h1 := fun sblk j => Rsum ((fun i => if ((sblk <=? j) && (j <? Nat.min (sblk + sb) num))%nat then term (i + blk) j else 0) <$> seq 0 size)).
  rewrite (foldM_plus _ h1 (length signal)); [| |done].
  { f_equal. apply plus_at_ext. intros j _. unfold h1, h. fold size. rewrite Rsum_swap. f_equal. apply list_fmap_ext. intros i x _.
    rewrite (sum_sample_blocks _ _ _ _ (term (x + blk) j)) by lia. done. }
  intros s' sblk Hsblk%starts_spec Hs'. set (send := Nat.min (sblk + sb) num).
  assert (sblk < send)%nat as Hsend by (unfold send; lia).
  rewrite (loop_break_plus _ (fun i j => if ((sblk <=? j) && (j <? send))%nat then term (i + blk) j else 0)
             (fun i => ~ time_at seg n (i + blk) <= t0 + INR (send - 1) * samp) (length signal)); [done|..|done].
  - intros i. destruct (Rle_dec (time_at seg n (i + blk)) (t0 + INR (send - 1) * samp)); tauto.
  - intros s2 i Hi Hs2 Hstop. assert (i + blk <= n)%nat as Hib' by (unfold size in *; lia).
    apply Rnot_not_le in Hstop || (destruct (Rle_dec (time_at seg n (i + blk)) (t0 + INR (send - 1) * samp)) as [Hstop'|]; [clear Hstop; rename Hstop' into Hstop|tauto]).
    rewrite time_eq by done. destruct (causal_spec _ Hib') as (c & Hc & Hcj). rewrite Hc. cbn [mbind option_bind].
    apply Hcj in Hstop. set (causal := Z.to_nat (Z.max 0 c)) in *. set (first := Nat.max sblk (Nat.min causal send)).
    assert (time_at seg n (i + blk) <= t0 + INR first * samp) as Hfirst by (apply Hcj; unfold first; lia).
    rewrite (proj2 (Nat.eqb_neq (send - first) 0)) by (unfold first; lia).
    destruct (Rlt_dec (INR first * samp + t0 - time_at seg n (i + blk)) 0); [lra|].
    rewrite (proj2 (Nat.ltb_ge _ _)) by (unfold first, send in *; lia).
    rewrite !list_lookup_fmap, !lookup_seq_lt by lia. cbn [fmap option_fmap option_map mbind option_bind]. rewrite Nat.add_0_l.
    rewrite along_eq by done.
    rewrite point_spec by (unfold first, send in *; lia || done). cbn [mbind option_bind]. do 2 f_equal. apply plus_at_ext. intros j Hj.
    unfold term. replace (first + (send - first))%nat with send by (unfold first; lia).
    destruct (Nat.ltb_spec j send); rewrite ?andb_false_r, ?andb_true_r; [|done].
    destruct (Nat.leb_spec sblk j).
    + destruct (Rle_dec (time_at seg n (i + blk)) (t0 + INR j * samp)) as [Hle|Hle].
      * apply Hcj in Hle. rewrite (proj2 (Nat.leb_le first j)) by (unfold first; lia). rewrite (Nat.add_comm blk i). ring.
      * destruct (Nat.leb_spec first j); [|done]. destruct Hle. apply Hcj. unfold first in *; lia.
    + rewrite (proj2 (Nat.leb_gt first j)) by (unfold first; lia). done.
  - intros s2 i Hi Hstop. assert (i + blk <= n)%nat as Hib' by (unfold size in *; lia).
    rewrite time_eq by done. destruct (causal_spec _ Hib') as (c & Hc & Hcj). rewrite Hc. cbn [mbind option_bind].
    rewrite (proj2 (Nat.eqb_eq _ 0)); [done|]. rewrite Hcj in Hstop. lia.
  - intros x y j Hstop _ Hy. destruct (Nat.leb_spec sblk j), (Nat.ltb_spec j send); simpl; try done. unfold term.
    destruct (Rle_dec (time_at seg n (y + blk)) (t0 + INR j * samp)) as [Hle|]; [|done]. destruct Hstop.
    assert (INR (x + blk) <= INR (y + blk)) as Hxy by (apply le_INR; lia).
    assert (INR j <= INR (send - 1)) as Hj by (apply le_INR; lia). apply (Rmult_le_compat_r samp) in Hj; [|lra].
    rewrite <- time_eq in * by done. assert (0 < INR n) by (apply lt_0_INR; lia).
    apply (Rmult_le_compat_r ((s_t1 seg - s_t0 seg) / INR n)) in Hxy; [lra|].
    apply Rmult_le_pos; [lra|]. left. by apply Rinv_0_lt_compat.
Qed.
End signal.

(** * C43 *)
(** The signal computed block by block is the signal plus the direct sum, whatever the block sizes are, if all points are in
    specified chunks. *)
Theorem C43_signal_is_direct_sum ib sb G K ignore E seg t0 samp weight num n signal :
  (1 <= ib)%nat -> (1 <= sb)%nat -> 0 < samp ->
  (g_interval G).1.1 <> 0 -> (g_interval G).1.2 <> 0 -> 0 < (g_interval G).2 ->
  s_t0 seg < s_t1 seg -> INR n - 1 < s_t1 seg - s_t0 seg <= INR n ->
  (forall p, (p <= n)%nat -> - (2 ^ 31) <= (time_at seg n p - t0) / samp <= 2 ^ 31 - 1) ->
  (forall p j, (p <= n)%nat -> (j < num)%nat -> time_at seg n p <= t0 + INR j * samp ->
    covered G K E (num - j) (samp / (g_interval G).2) (ind_r G seg n p) (ind_z G seg n p) (ind_t G (t0 + INR j * samp - time_at seg n p))) ->
  (num <= length signal)%nat ->
  apply_accumulate ib sb G K ignore seg t0 samp num weight signal
  = Some (imap (fun j y => y + if (j <? num)%nat then direct_sum G E seg n weight (t0 + INR j * samp) else 0) signal).
Proof. intros. apply apply_spec; auto. Qed.
Print Assumptions C43_signal_is_direct_sum.

(** * The field stored in chunks *)
(** The kernel-weighted sum over the samples [g] of the whole field around a point. *)
Definition kernel_weight (K : kernel) (x : R) (j : nat) : R := nth j (default [] (k_kern K (frac_part x))) 0.
Definition grid_field (K : kernel) (g : Z -> Z -> Z -> nat -> R) : field := fun r z t =>
  let ks := (2 * k_support K)%nat in let node x j := (Int_part x - (Z.of_nat (k_support K) - 1) + Z.of_nat j)%Z in
  let value c := sum ks (fun j1 => sum ks (fun j2 => sum ks (fun j3 =>
    kernel_weight K r j1 * kernel_weight K z j2 * kernel_weight K t j3 * g (node r j1) (node z j2) (node t j3) c))) in
  (value 0%nat, value 1%nat).

(** The indices that interpolation at [x] uses along one axis. *)
Definition touches (K : kernel) (x : R) (j : Z) : Prop := (Int_part x - Z.of_nat (k_support K) < j <= Int_part x + Z.of_nat (k_support K))%Z.
(** Interpolation at the position uses only indices in [U]. *)
Definition uses (K : kernel) (U : Z -> Z -> Z -> Prop) (r z t : R) : Prop := forall j1 j2 j3, touches K r j1 -> touches K z j2 -> touches K t j3 -> U j1 j2 j3.
(** The indices that interpolation at positions that are not negative may use. *)
Definition needed (K : kernel) (j1 j2 j3 : Z) : Prop := let s := Z.of_nat (k_support K) in (1 - s <= j1 /\ 1 - s <= j2 /\ 1 - s <= j3)%Z.
(** A chunk at [start] of [shape] with [ov] elements overlap holds the samples [g] at the indices in [U]. *)
Definition stores (U : Z -> Z -> Z -> Prop) (g : Z -> Z -> Z -> nat -> R) (start shape : list N) (ov : N) (data : ndarr R) : Prop :=
  api_array 2 data /\ a_shape data = (fun n => N.to_nat n + 2 * N.to_nat ov)%nat <$> shape /\
  exists s1 s2 s3, start = [s1; s2; s3] /\
    forall i1 i2 i3, let j1 := (Z.of_nat i1 + Z.of_N s1 - Z.of_N ov)%Z in let j2 := (Z.of_nat i2 + Z.of_N s2 - Z.of_N ov)%Z in let j3 := (Z.of_nat i3 + Z.of_N s3 - Z.of_N ov)%Z in
      in_shape (a_shape data) [i1; i2; i3] -> U j1 j2 j3 -> aread 2 data [i1; i2; i3] = Some (g j1 j2 j3 <$> [0; 1]%nat).

Lemma cell_shift x i (s ov : N) : cell x i -> (N.to_nat s <= i + N.to_nat ov)%nat ->
  cell (x - INR (N.to_nat s) + INR (N.to_nat ov)) (i + N.to_nat ov - N.to_nat s).
Proof. intros [H1 H2] Hs. unfold cell. rewrite minus_INR, plus_INR by done. lra. Qed.
Lemma frac_cell x i : cell x i -> frac_part x = x - INR i.
Proof. intros Hc. unfold frac_part. by rewrite (Int_part_cell _ _ Hc), <- INR_IZR_INZ. Qed.

Lemma chunk_serves G K U g ty path id s1 s2 s3 n1 n2 n3 ov data r z t ts n ir iz :
  let m := mk_meta ty path id [s1; s2; s3] [n1; n2; n3] ov in
  K = linear \/ K = keys -> fits [s1; s2; s3] [n1; n2; n3] ov -> (ov < 2 ^ 64)%N -> g_data G m = Some data -> stores U g [s1; s2; s3] [n1; n2; n3] ov data ->
  cell r ir -> cell z iz -> (N.to_nat s1 <= ir < N.to_nat (s1 + n1))%nat -> (N.to_nat s2 <= iz < N.to_nat (s2 + n2))%nat ->
  0 < ts -> INR (N.to_nat s3) <= t -> (k_support K <= N.to_nat ov)%nat ->
  (n = 0%nat -> t < INR (N.to_nat (s3 + n3))) ->
  (forall s, (s < n)%nat -> t + INR s * ts < INR (N.to_nat (s3 + n3)) \/
     t + INR s * ts <= INR (N.to_nat (s3 + n3)) /\ (k_support K < N.to_nat ov)%nat) ->
  (forall s, (s < n)%nat -> uses K U r z (t + INR s * ts)) ->
  chunk_samples G K m r z t ts n = Some (pairs ((fun s => grid_field K g r z (t + INR s * ts)) <$> seq 0 n)).
Proof.
  intros m HK Hfit Hovw Hdata (Hapi & Hsh & s1' & s2' & s3' & [= <- <- <-] & Hval) Hr Hz Hr1 Hz1 Hts Ht Hov Hn0 Hs HU.
  unfold chunk_samples. rewrite Hdata. cbn [mbind option_bind].
  assert (exists it, cell t it) as [it Hit] by (apply cell_exists; pose proof (pos_INR (N.to_nat s3)); lra).
  assert (N.to_nat s3 <= it)%nat as Hit3.
  { destruct (decide (N.to_nat s3 <= it)%nat) as [|Hx]; [done|]. assert (S it <= N.to_nat s3)%nat as Hx' by lia. apply le_INR in Hx'. rewrite S_INR in Hx'. destruct Hit; lra. }
  assert (t <= INR (N.to_nat (s3 + n3)) /\ (t < INR (N.to_nat (s3 + n3)) \/ (k_support K < N.to_nat ov)%nat)) as [Htend Htend'].
  { destruct n as [|n]; [split; [left|left]; by apply Hn0|]. destruct (Hs 0%nat) as [Hx|[Hx Hx']]; [lia|simpl in Hx; lra|simpl in Hx; split; [lra|by right]]. }
  assert (it <= N.to_nat (s3 + n3))%nat as Hite.
  { apply INR_le. destruct Hit. lra. }
  assert (1 <= k_support K)%nat as Hsup by (destruct HK as [-> | ->]; simpl; lia).
  unfold m. rewrite (C46_local_coordinate_exact ty path id [s1; s2; s3] [n1; n2; n3] ov [r; z; t] [N.of_nat ir; N.of_nat iz; N.of_nat it] [r - INR ir; z - INR iz; t - INR it]).
  2:done. 2: done. 2: done. 3: done.
  2:{ split; repeat constructor; lia. }
  2:{ unfold cell in *. repeat (apply Forall_cons_2; [lra|]). constructor. }
  2:{ simpl. rewrite !Nat2N.id. repeat f_equal; lra. }
  cbn [mbind option_bind zip_with].
  set (lr := r - INR (N.to_nat s1) + INR (N.to_nat ov)). set (lz := z - INR (N.to_nat s2) + INR (N.to_nat ov)). set (lt := t - INR (N.to_nat s3) + INR (N.to_nat ov)).
  assert (cell lr (ir + N.to_nat ov - N.to_nat s1)) as Clr by (apply cell_shift; [done|lia]).
  assert (cell lz (iz + N.to_nat ov - N.to_nat s2)) as Clz by (apply cell_shift; [done|lia]).
  set (o1 := (ir + N.to_nat ov - N.to_nat s1)%nat) in *. set (o2 := (iz + N.to_nat ov - N.to_nat s2)%nat) in *.
  destruct (kern_total K (lr - INR o1)) as (w1 & Hw1 & _ & _); [done|unfold cell in *; lra|].
  destruct (kern_total K (lz - INR o2)) as (w2 & Hw2 & _ & _); [done|unfold cell in *; lra|].
  set (gt := fun s => t + INR s * ts). 
  assert (forall s, (s < n)%nat -> exists i, cell (gt s) i /\ (N.to_nat s3 <= i <= N.to_nat (s3 + n3))%nat /\ (i < N.to_nat (s3 + n3) \/ k_support K < N.to_nat ov)%nat) as Hcells.
  { intros s Hsn. assert (0 <= INR s * ts) by (apply Rmult_le_pos; [apply pos_INR|lra]). destruct (cell_exists (gt s)) as [i Hi].
    { unfold gt. pose proof (pos_INR (N.to_nat s3)). lra. }
    exists i. split; [done|]. assert (N.to_nat s3 < S i)%nat. { apply INR_lt. rewrite S_INR. destruct Hi. unfold gt in *. lra. }
    destruct Hi as [Hi1 Hi2]. destruct (Hs s Hsn) as [Hx|[Hx Hx']]; fold (gt s) in Hx.
    - assert (i < N.to_nat (s3 + n3))%nat by (apply INR_lt; lra). lia.
    - assert (i <= N.to_nat (s3 + n3))%nat by (apply INR_le; lra). lia. }
  set (o3 := fun s => (Z.to_nat (Int_part (gt s)) + N.to_nat ov - N.to_nat s3)%nat).
  set (f3 := fun s => frac_part (gt s)).
  destruct (C42_interpolation_is_weighted_sum K 2 data (N.to_nat n1 + 2 * N.to_nat ov) (N.to_nat n2 + 2 * N.to_nat ov) (N.to_nat n3 + 2 * N.to_nat ov)
     o1 (lr - INR o1) o2 (lz - INR o2) w1 w2 lt ts n o3 f3 (fun s => default [] (k_kern K (f3 s)))) as (out & Hout & Hlen & Hv); try done.
  - unfold cell in *; lra.
  - unfold cell in *; lra.
  - unfold has_room, o1; lia.
  - unfold has_room, o2; lia.
  - intros s Hsn. destruct (Hcells s Hsn) as (i & Hi & Hi1 & Hi2). unfold o3, f3. rewrite (Int_part_cell _ _ Hi), (frac_cell _ _ Hi), Nat2Z.id.
    split_and!.
    + rewrite minus_INR, plus_INR by lia. unfold lt, gt. lra.
    + destruct Hi; lra.
    + destruct Hi; lra.
    + destruct (kern_total K (gt s - INR i)) as (w3 & -> & _); [done|destruct Hi; lra|done].
    + unfold has_room. lia.
  - replace (INR o1 + (lr - INR o1)) with lr in Hout by lra. replace (INR o2 + (lz - INR o2)) with lz in Hout by lra.
    unfold cleared in Hout. rewrite Hout. f_equal.
    apply list_eq_same_length with n; [unfold pairs; by rewrite !fmap_length, seq_length|done|].
    intros s a b Hsn Ha Hb. rewrite Hv in Ha by done. injection Ha as <-.
    unfold pairs in Hb. rewrite !list_lookup_fmap, lookup_seq_lt in Hb by done. cbn [fmap option_fmap option_map] in Hb. apply (inj Some) in Hb. subst b.
    rewrite Nat.add_0_l. fold (gt s). destruct (Hcells s Hsn) as (i & Hi & Hi1 & Hi2).
    assert (forall c, (c < 2)%nat -> interp_sum K 2 data w1 w2 (default [] (k_kern K (f3 s))) o1 o2 (o3 s) c =
      sum (2 * k_support K) (fun j1 => sum (2 * k_support K) (fun j2 => sum (2 * k_support K) (fun j3 =>
    kernel_weight K r j1 * kernel_weight K z j2 * kernel_weight K (gt s) j3 *
      g (Int_part r - (Z.of_nat (k_support K) - 1) + Z.of_nat j1)%Z (Int_part z - (Z.of_nat (k_support K) - 1) + Z.of_nat j2)%Z
         (Int_part (gt s) - (Z.of_nat (k_support K) - 1) + Z.of_nat j3)%Z c)))) as Heq.
    { intros c Hc. unfold interp_sum. apply sum_ext. intros j1 Hj1. apply sum_ext. intros j2 Hj2. apply sum_ext. intros j3 Hj3.
      assert (kernel_weight K r j1 = nth j1 w1 0) as ->.
      { unfold kernel_weight. rewrite (frac_cell _ _ Hr). replace (r - INR ir) with (lr - INR o1); [by rewrite Hw1|].
        unfold lr, o1. rewrite minus_INR, plus_INR by lia. lra. }
      assert (kernel_weight K z j2 = nth j2 w2 0) as ->.
      { unfold kernel_weight. rewrite (frac_cell _ _ Hz). replace (z - INR iz) with (lz - INR o2); [by rewrite Hw2|].
        unfold lz, o2. rewrite minus_INR, plus_INR by lia. lra. }
      f_equal. unfold comp. rewrite Hval.
      2:{ rewrite Hsh. apply in_shape_forall2. unfold o3. rewrite (Int_part_cell _ _ Hi), Nat2Z.id. repeat constructor; unfold o1, o2; lia. }
      2:{ apply (HU s Hsn); unfold touches; fold (gt s); rewrite ?(Int_part_cell _ _ Hr), ?(Int_part_cell _ _ Hz), ?(Int_part_cell _ _ Hi); unfold o1, o2, o3; rewrite ?(Int_part_cell _ _ Hi), ?Nat2Z.id; lia. }
      cbn [default]. unfold Datatypes.id. rewrite (nth_lookup_Some _ _ 0 (g (Int_part r - (Z.of_nat (k_support K) - 1) + Z.of_nat j1)%Z (Int_part z - (Z.of_nat (k_support K) - 1) + Z.of_nat j2)%Z
         (Int_part (gt s) - (Z.of_nat (k_support K) - 1) + Z.of_nat j3)%Z c)); [done|].
      rewrite list_lookup_fmap. change [0; 1]%nat with (seq 0 2). rewrite lookup_seq_lt by done. cbn [fmap option_fmap option_map]. f_equal.
      rewrite (Int_part_cell _ _ Hr), (Int_part_cell _ _ Hz). unfold o3. rewrite (Int_part_cell _ _ Hi), Nat2Z.id. f_equal; [unfold o1, o2; lia..]. }
    unfold vec. cbn [seq fmap list_fmap]. rewrite !Heq by lia. done.
Qed.

(** The chunks that the index hands out: the chunk contains the index it was looked up with and has the overlap that the
    kernel needs; if it is specified, the stored array holds the samples [g] at the indices in [U], and if it is all-null, they are zero. *)
Definition library (G : green) (K : kernel) (U : Z -> Z -> Z -> Prop) (g : Z -> Z -> Z -> nat -> R) : Prop :=
  forall i1 i2 i3 m, g_chunk G [i1; i2; i3] = Some m ->
  exists ty path id s1 s2 s3 n1 n2 n3 ov, m = mk_meta ty path id [s1; s2; s3] [n1; n2; n3] ov /\
    fits [s1; s2; s3] [n1; n2; n3] ov /\ (k_support K <= N.to_nat ov)%nat /\ (ov < 2 ^ 64)%N /\
    (s1 <= i1 < s1 + n1)%N /\ (s2 <= i2 < s2 + n2)%N /\ (s3 <= i3 < s3 + n3)%N /\
    if decide (ty = specified) then exists data, g_data G m = Some data /\ stores U g [s1; s2; s3] [n1; n2; n3] ov data
    else forall j1 j2 j3 c, let near j s n := (Z.of_N s - Z.of_N ov <= j < Z.of_N s + Z.of_N n + Z.of_N ov)%Z in
      near j1 s1 n1 -> near j2 s2 n2 -> near j3 s3 n3 -> U j1 j2 j3 -> g j1 j2 j3 c = 0.
(** The time is not exactly at the end of a chunk that has no more overlap than the kernel needs. *)
Definition off_end (G : green) (K : kernel) (t : R) : Prop :=
  forall ind m e, g_chunk G ind = Some m -> cm_end m !! 2%nat = Some e -> (k_support K < N.to_nat (cm_overlap m))%nat \/ t <> INR (N.to_nat e).

Lemma fits_end s1 s2 s3 n1 n2 n3 ov ty path id : fits [s1; s2; s3] [n1; n2; n3] ov ->
  cm_end (mk_meta ty path id [s1; s2; s3] [n1; n2; n3] ov) !! 2%nat = Some (s3 + n3)%N.
Proof.
  intros [H _]. simpl in H. rewrite !list.Forall_cons in H. destruct H as (_ & _ & H & _). simpl. f_equal. unfold wadd. apply N.mod_small. unfold W. lia.
Qed.
Lemma cell_lt x i n : cell x i -> (i < n)%nat -> x < INR n.
Proof. intros [_ H] Hn. assert (S i <= n)%nat as Hn' by lia. apply le_INR in Hn'. rewrite S_INR in Hn'. lra. Qed.

Lemma library_covered G K U g r z t ts m rem :
  K = linear \/ K = keys -> library G K U g -> 0 < ts -> found G r z t (Some m) -> cm_type m = specified ->
  (forall s, (s < rem)%nat -> uses K U r z (t + INR s * ts) /\ off_end G K (t + INR s * ts)) -> covered G K (grid_field K g) rem ts r z t.
Proof.
  intros HK Hlib Hts Hfd Hty Huse. pose proof Hfd as (ir & iz & it & Hr & Hz & Ht & Hm).
  destruct (Hlib _ _ _ _ Hm) as (ty & path & id & s1 & s2 & s3 & n1 & n2 & n3 & ov & -> & Hfit & Hov & Hovw & H1 & H2 & H3 & Hd).
  cbn [cm_type mk_meta] in Hty. rewrite decide_True in Hd by done. destruct Hd as (data & Hdata & Hst).
  assert (t < INR (N.to_nat (s3 + n3))) as Hend by (eapply cell_lt; [done|lia]).
  exists (mk_meta ty path id [s1; s2; s3] [n1; n2; n3] ov), (s3 + n3)%N. split_and!; [done|done|cbn [cm_overlap mk_meta]; lia|by apply fits_end|lra|].
  intros n Hrem Hn. apply (chunk_serves G K U g ty path id s1 s2 s3 n1 n2 n3 ov data r z t ts n ir iz); try done; [lia..| | |].
  - destruct Ht as [Ht _]. assert (N.to_nat s3 <= it)%nat as Hx by lia. apply le_INR in Hx. lra.
  - intros s Hs. destruct Hn as [->|Hn]; [lia|]. assert (INR s <= INR (n - 1)) as Hsn by (apply le_INR; lia). apply (Rmult_le_compat_r ts) in Hsn; [|lra].
    destruct (Huse s ltac:(lia)) as [_ Hoff]. destruct (Hoff _ _ _ Hm (fits_end _ _ _ _ _ _ _ _ _ _ Hfit)) as [Hlt|Hne]; [right; split; [lra|exact Hlt]|left; lra].
  - intros s Hs. apply Huse. lia.
Qed.

Lemma library_null G K U ignore g r z t m :
  K = linear \/ K = keys -> library G K U g -> uses K U r z t -> found G r z t (Some m) -> cm_type m <> specified -> blank G K ignore (grid_field K g) r z t.
Proof.
  intros HK Hlib Huse Hfd Hty. pose proof Hfd as (ir & iz & it & Hr & Hz & Ht & Hm).
  destruct (Hlib _ _ _ _ Hm) as (ty & path & id & s1 & s2 & s3 & n1 & n2 & n3 & ov & -> & Hfit & Hov & Hovw & H1 & H2 & H3 & Hd).
  cbn [cm_type mk_meta] in Hty. rewrite decide_False in Hd by done.
  assert (t < INR (N.to_nat (s3 + n3))) as Hend by (eapply cell_lt; [done|lia]).
  split.
  - assert (1 <= k_support K)%nat as Hsup by (destruct HK as [-> | ->]; simpl; lia).
    unfold grid_field. rewrite (Int_part_cell _ _ Hr), (Int_part_cell _ _ Hz), (Int_part_cell _ _ Ht).
    assert (forall n f, (forall j, (j < n)%nat -> f j = 0) -> sum n f = 0) as Hsum0.
    { induction n as [|n IH]; intros f Hf; [done|]. rewrite sum_S, IH, Hf by (done || (intros; apply Hf; lia) || lia). lra. }
    f_equal; apply Hsum0; intros j1 Hj1; apply Hsum0; intros j2 Hj2; apply Hsum0; intros j3 Hj3; (rewrite Hd; [lra|lia..|]); apply Huse; unfold touches; rewrite ?(Int_part_cell _ _ Hr), ?(Int_part_cell _ _ Hz), ?(Int_part_cell _ _ Ht); lia.
  - right. exists (mk_meta ty path id [s1; s2; s3] [n1; n2; n3] ov), (s3 + n3)%N.
    split_and!; [done|done|cbn [cm_overlap mk_meta]; lia|by apply fits_end|lra].
Qed.

Lemma later_sample G t0 samp s j x : 0 < (g_interval G).2 -> ind_t G (t0 + INR j * samp - x) + INR s * (samp / (g_interval G).2) = ind_t G (t0 + INR (j + s) * samp - x).
Proof. intros H. unfold ind_t. rewrite plus_INR. field. lra. Qed.
(** If there is more overlap than the kernel needs, nothing needs to be checked for positions that are not negative. *)
Lemma uses_needed K r z t : 0 <= r -> 0 <= z -> 0 <= t -> uses K (needed K) r z t.
Proof.
  intros Hr Hz Ht j1 j2 j3 H1 H2 H3. destruct (cell_exists _ Hr) as [a Ha], (cell_exists _ Hz) as [b Hb], (cell_exists _ Ht) as [c Hc].
  unfold touches in *. rewrite (Int_part_cell _ _ Ha) in H1. rewrite (Int_part_cell _ _ Hb) in H2. rewrite (Int_part_cell _ _ Hc) in H3. unfold needed. cbv zeta. lia.
Qed.
Lemma uses_found K G r z t m : found G r z t m -> uses K (needed K) r z t.
Proof. intros (a & b & c & [H1 _] & [H2 _] & [H3 _] & _). pose proof (pos_INR a). pose proof (pos_INR b). pose proof (pos_INR c). apply uses_needed; lra. Qed.

(** The signal from the samples stored in a library of chunks, whatever its layout is and whatever the block sizes are. *)
Theorem C43_signal_from_stored_samples ib sb G K U ignore g seg t0 samp weight num n signal :
  K = linear \/ K = keys -> library G K U g ->
  (1 <= ib)%nat -> (1 <= sb)%nat -> 0 < samp ->
  (g_interval G).1.1 <> 0 -> (g_interval G).1.2 <> 0 -> 0 < (g_interval G).2 ->
  s_t0 seg < s_t1 seg -> INR n - 1 < s_t1 seg - s_t0 seg <= INR n ->
  (forall p, (p <= n)%nat -> - (2 ^ 31) <= (time_at seg n p - t0) / samp <= 2 ^ 31 - 1) ->
  (forall p j, (p <= n)%nat -> (j < num)%nat -> time_at seg n p <= t0 + INR j * samp ->
    let t := ind_t G (t0 + INR j * samp - time_at seg n p) in let r := ind_r G seg n p in let z := ind_z G seg n p in
    uses K U r z t /\ off_end G K t /\ exists m, found G r z t (Some m) /\ cm_type m = specified) ->
  (num <= length signal)%nat ->
  apply_accumulate ib sb G K ignore seg t0 samp num weight signal
  = Some (imap (fun j y => y + if (j <? num)%nat then direct_sum G (grid_field K g) seg n weight (t0 + INR j * samp) else 0) signal).
Proof.
  intros HK Hlib ????????? Hcov ?. apply C43_signal_is_direct_sum; auto. intros p j Hp Hj Ht. destruct (Hcov p j Hp Hj Ht) as (_ & _ & m & Hfd & Hty).
  eapply library_covered; eauto. { apply Rmult_lt_0_compat; [done|]. by apply Rinv_0_lt_compat. }
  intros s Hs. rewrite later_sample by done. destruct (Hcov p (j + s)%nat Hp ltac:(lia)) as (? & ? & _); [|done]. rewrite plus_INR. pose proof (Rmult_le_pos (INR s) samp (pos_INR s) ltac:(lra)). lra.
Qed.
Print Assumptions C43_signal_from_stored_samples.

(** Therefore the result does not depend on the block sizes. *)
Theorem C43_independent_of_block_sizes ib sb ib' sb' G K ignore E seg t0 samp weight num n signal :
  (1 <= ib)%nat -> (1 <= sb)%nat -> (1 <= ib')%nat -> (1 <= sb')%nat -> 0 < samp ->
  (g_interval G).1.1 <> 0 -> (g_interval G).1.2 <> 0 -> 0 < (g_interval G).2 ->
  s_t0 seg < s_t1 seg -> INR n - 1 < s_t1 seg - s_t0 seg <= INR n ->
  (forall p, (p <= n)%nat -> - (2 ^ 31) <= (time_at seg n p - t0) / samp <= 2 ^ 31 - 1) ->
  (forall p j, (p <= n)%nat -> (j < num)%nat -> time_at seg n p <= t0 + INR j * samp ->
    covered G K E (num - j) (samp / (g_interval G).2) (ind_r G seg n p) (ind_z G seg n p) (ind_t G (t0 + INR j * samp - time_at seg n p))) ->
  (num <= length signal)%nat ->
  apply_accumulate ib sb G K ignore seg t0 samp num weight signal = apply_accumulate ib' sb' G K ignore seg t0 samp num weight signal.
Proof. intros. by rewrite !(C43_signal_is_direct_sum _ _ G K ignore E seg t0 samp weight num n). Qed.
Print Assumptions C43_independent_of_block_sizes.

(** * C44 *)
(** True as long as, from every quadrature point, nothing but all-null chunks (or, if that is to be ignored, the outside, where the field is taken to be
    zero) follows after the first of them in time.  Missing: null chunks before specified ones, see the next theorem. *)
Theorem C44_null_chunks_at_the_end_partial ib sb G K U ignore g seg t0 samp weight num n signal :
  K = linear \/ K = keys -> library G K U g ->
  (1 <= ib)%nat -> (1 <= sb)%nat -> 0 < samp ->
  (g_interval G).1.1 <> 0 -> (g_interval G).1.2 <> 0 -> 0 < (g_interval G).2 ->
  s_t0 seg < s_t1 seg -> INR n - 1 < s_t1 seg - s_t0 seg <= INR n ->
  (forall p, (p <= n)%nat -> - (2 ^ 31) <= (time_at seg n p - t0) / samp <= 2 ^ 31 - 1) ->
  (forall p j, (p <= n)%nat -> (j < num)%nat -> time_at seg n p <= t0 + INR j * samp ->
    let at_ k := ind_t G (t0 + INR k * samp - time_at seg n p) in let r := ind_r G seg n p in let z := ind_z G seg n p in
    uses K U r z (at_ j) /\ off_end G K (at_ j) /\
    ((exists m, found G r z (at_ j) (Some m) /\ cm_type m = specified) \/
    (forall k, (j <= k < num)%nat ->
      (exists m, found G r z (at_ k) (Some m) /\ cm_type m <> specified) \/
      (ignore = true /\ found G r z (at_ k) None /\ grid_field K g r z (at_ k) = (0, 0))))) ->
  (num <= length signal)%nat ->
  apply_accumulate ib sb G K ignore seg t0 samp num weight signal
  = Some (imap (fun j y => y + if (j <? num)%nat then direct_sum G (grid_field K g) seg n weight (t0 + INR j * samp) else 0) signal).
Proof.
  intros HK Hlib ????????? Hcov ?. apply apply_spec; auto. intros p j Hp Hj Ht.
  assert (forall s, (j + s < num)%nat -> time_at seg n p <= t0 + INR (j + s) * samp) as Hlater. { intros s Hs. rewrite plus_INR. pose proof (Rmult_le_pos (INR s) samp (pos_INR s) ltac:(lra)). lra. }
  destruct (Hcov p j Hp Hj Ht) as (_ & _ & [(m & Hfd & Hty)|Hnull]).
  - left. eapply library_covered; eauto. { apply Rmult_lt_0_compat; [done|]. by apply Rinv_0_lt_compat. }
    intros s Hs. rewrite later_sample by done. destruct (Hcov p (j + s)%nat Hp ltac:(lia)) as (? & ? & _); [apply Hlater; lia|done].
  - right. intros k Hk. destruct (Hnull k Hk) as [(m & Hfd & Hty)|(Hi & Hfd & HE)].
    { eapply library_null; eauto. specialize (Hlater (k - j)%nat ltac:(lia)). replace (j + (k - j))%nat with k in Hlater by lia. by destruct (Hcov p k Hp ltac:(lia) Hlater) as (? & _). }
    split; [done|]. by left.
Qed.
Print Assumptions C44_null_chunks_at_the_end_partial.
