(** C76: the contributions of all points of a track, if the calculation returns. *)
From stdpp Require Import base list list_numbers numbers option.
From Coq Require Import Reals ZArith Bool Lra Lia.
From Flocq Require Import Core IEEE754.BinarySingleNaN.
From Verif Require Import NDArrayModel BBoxModel ChunkMetaModel InterpModel SignalModel AntennaModel AntennaSpec AntennaProps DiscreteModel DiscreteSpec DiscreteProps.
From Verif Require Import Interp32Model Interp32Spec Interp32Weights Signal32Model Signal32Spec Signal32Props Signal32Whole Signal32Error Signal32Any Chunk32Spec Chunk32Props Chunk32Loop.

Section sound.
Context {A : Type} (plus : A -> f32 -> A) (Con : nat -> nat -> f32 -> Prop).
(** The signal [s'] is [s] with contributions of points added; [F j] appends the points that contribute to sample [j] to a list. *)
Definition goes (s s' : list A) (F : nat -> list nat -> list nat) : Prop := exists (xs : nat -> list f32) (qs : nat -> list nat),
  s' = changed (fun j y => foldl plus y (xs j)) s /\ (forall j acc, F j acc = acc ++ qs j) /\ forall j, Forall2 (fun p x => Con p j x) (qs j) (xs j).
Lemma goes_refl s F : (forall j acc, F j acc = acc) -> goes s s F.
Proof. intros HF. exists (fun _ => []), (fun _ => []). split; [symmetry; apply changed_id|]. split; [intros; by rewrite HF, app_nil_r|constructor]. Qed.
Lemma goes_trans s s1 s2 F1 F2 : goes s s1 F1 -> goes s1 s2 F2 -> goes s s2 (fun j acc => F2 j (F1 j acc)).
Proof.
  intros (x1 & q1 & -> & H1 & C1) (x2 & q2 & -> & H2 & C2). exists (fun j => x1 j ++ x2 j), (fun j => q1 j ++ q2 j). split; [|split].
  - rewrite changed_changed. apply changed_ext. intros. by rewrite foldl_app.
  - intros j acc. by rewrite H2, H1, app_assoc.
  - intros j. by apply Forall2_app.
Qed.
Lemma goes_ext s s' F F' : (forall j acc, F j acc = F' j acc) -> goes s s' F -> goes s s' F'.
Proof. intros HF (x & q & E & H & C). exists x, q. split; [done|]. split; [intros; by rewrite <- HF|done]. Qed.
Lemma goes_length s s' F : goes s s' F -> length s' = length s.
Proof. intros (x & q & -> & _). apply changed_length. Qed.
Lemma foldM_goes {B} (f : list A -> B -> option (list A)) (h : B -> nat -> list nat -> list nat) (l : list B) s s' :
  (forall s x s', x ∈ l -> f s x = Some s' -> goes s s' (h x)) -> foldM f s l = Some s' -> goes s s' (fun j acc => foldl (fun acc x => h x j acc) acc l).
Proof.
  revert s. induction l as [|x l IH]; intros s Hf H; cbn [foldM] in H.
  - injection H as <-. by apply goes_refl.
  - destruct (f s x) as [s1|] eqn:E; [|done]. cbn [mbind option_bind] in H. apply Hf in E; [|left]. apply IH in H; [|intros; apply Hf; [by right|done]]. cbn [foldl]. exact (goes_trans _ _ _ _ _ E H).
Qed.
Lemma loop_break_goes (f : list A -> nat -> option (list A + list A)) (h : nat -> nat -> list nat -> list nat) (stop : nat -> bool) k a s s' :
  (forall s x r, (a <= x < a + k)%nat -> stop x = false -> f s x = Some r -> exists s', r = inl s' /\ goes s s' (h x)) ->
  (forall s x r, (a <= x < a + k)%nat -> stop x = true -> f s x = Some r -> r = inr s) ->
  (forall x y j acc, stop x = true -> (a <= x)%nat -> (x <= y < a + k)%nat -> h y j acc = acc) ->
  loop_break f s (seq a k) = Some s' -> goes s s' (fun j acc => foldl (fun acc x => h x j acc) acc (seq a k)).
Proof.
  revert a s. induction k as [|k IH]; intros a s H1 H2 H3 H; cbn [seq loop_break] in H.
  - injection H as <-. by apply goes_refl.
  - destruct (f s a) as [r|] eqn:E; [|done]. cbn [mbind option_bind] in H. destruct (stop a) eqn:Hs.
    + apply H2 in E; [|lia|done]. subst r. injection H as <-. apply goes_refl. intros j acc. apply foldl_same. intros x Hx%elem_of_seq v. apply (H3 a); [done|lia|lia].
    + apply H1 in E as (s1 & -> & E); [|lia|done]. apply IH in H.
      * cbn [seq foldl]. exact (goes_trans _ _ _ _ _ E H).
      * intros s0 x r Hx. apply H1. lia.
      * intros s0 x r Hx. apply H2. lia.
      * intros x y j acc Hx Hy1 Hy. apply (H3 x); [done|lia|lia].
Qed.
(** The contributions of one point. *)
Lemma added_goes p first m x s : (forall i, (i < m)%nat -> Con p (first + i)%nat (x i)) -> goes s (added plus first m x s) (fun j acc => if ((first <=? j) && (j <? first + m))%nat then acc ++ [p] else acc).
Proof.
  intros Hx. exists (fun j => if ((first <=? j) && (j <? first + m))%nat then [x (j - first)%nat] else []), (fun j => if ((first <=? j) && (j <? first + m))%nat then [p] else []). split; [|split].
  - unfold added. apply changed_ext. intros j y. by destruct (_ && _).
  - intros j acc. destruct (_ && _); [done|by rewrite app_nil_r].
  - intros j. destruct (Nat.leb_spec first j), (Nat.ltb_spec j (first + m)); simpl; try constructor; [|constructor]. replace j with (first + (j - first))%nat at 1 by lia. apply Hx. lia.
Qed.

(** * The loops *)
Context (call : f32 * f32 -> f32 -> nat -> f32 * f32 -> nat -> f32 -> list A -> option (list A)) (ib sb : nat) (seg : segment32) (ts dt : f32) (num n : nat) (weight : f32).
Context (c : nat -> nat).
Let step := itgr_step32 (s32_t0 seg) (s32_t1 seg) (N.of_nat n).
Let tp p := itgr_time32 (s32_t0 seg) step p.
Context (Hib : (1 <= ib)%nat) (Hsb : (1 <= sb)%nat) (Hn : (0 < n)%nat).
Context (Hint : num_intervals32 (s32_t0 seg) (s32_t1 seg) = Some (N.of_nat n)).
Context (Hc : forall p, (p <= n)%nat -> causal_sample32 (tp p) ts dt = Some (c p)).
Context (Hmono : forall p q, (p <= q)%nat -> (q <= n)%nat -> (c p <= c q)%nat).
Context (Hcall : forall p first m signal s', (p <= n)%nat -> (c p <= first)%nat -> (0 < m)%nat -> (first + m <= num)%nat -> Bleb zero32 (conv_start32 (tp p) ts dt first) = true ->
  call (coord_cyl32 (position32 seg step p)) (conv_start32 (tp p) ts dt first) m (field_cyl32 (source32 seg) (position32 seg step p)) first (point_weight32 (trapezoid32 n p) step weight) signal = Some s' ->
  exists x, s' = added plus first m x signal /\ forall i, (i < m)%nat -> Con p (first + i)%nat (x i)).

Lemma loops_sound signal s' : apply_accumulate_with call ib sb seg ts dt num weight signal = Some s' ->
  goes signal s' (fun j acc => if (j <? num)%nat then foldl (fun acc p => if (c p <=? j)%nat then acc ++ [p] else acc) acc (seq 0 (n + 1)) else acc).
Proof.
  intros H. unfold apply_accumulate_with in H. rewrite Hint in H. cbn [mbind option_bind] in H. rewrite Nat2N.id in H. fold step in H.
  set (h := fun blk j acc => foldl (fun acc i => if (j <? num)%nat then (if (c (i + blk) <=? j)%nat then acc ++ [(i + blk)%nat] else acc) else acc) acc (seq 0 (Nat.min ib (n + 1 - blk)))).
  apply (foldM_goes _ h) in H.
  { eapply goes_ext; [|exact H]. intros j acc. cbv beta. unfold h. rewrite (fold_itgr_blocks _ _ _ _ (fun p acc => if (j <? num)%nat then (if (c p <=? j)%nat then acc ++ [p] else acc) else acc)) by lia.
    rewrite Nat.sub_0_r. destruct (j <? num)%nat; [done|]. by apply foldl_same. }
  clear H signal s'. intros s blk s' Hblk%starts_below H. cbv zeta in H. set (size := Nat.min ib (n + 1 - blk)) in *. rewrite fill_weights32_spec in H by (unfold size; lia). cbn [mbind option_bind] in H.
  set (h1 := fun sblk j acc => foldl (fun acc i => if ((sblk <=? j) && (j <? Nat.min (sblk + sb) num))%nat then (if (c (i + blk) <=? j)%nat then acc ++ [(i + blk)%nat] else acc) else acc) acc (seq 0 size)).
  apply (foldM_goes _ h1) in H.
  { eapply goes_ext; [|exact H]. intros j acc. cbv beta. unfold h1, h. fold size.
    rewrite (foldl_ext_in _ (fun acc b => if ((b <=? j) && (j <? Nat.min (b + sb) num))%nat then foldl (fun acc i => if (c (i + blk) <=? j)%nat then acc ++ [(i + blk)%nat] else acc) acc (seq 0 size) else acc)).
    - rewrite (fold_sample_blocks _ 0 _ _ (fun b acc => foldl (fun acc i => if (c (i + blk) <=? j)%nat then acc ++ [(i + blk)%nat] else acc) acc (seq 0 size))) by lia.
      cbn [Nat.mul Nat.leb andb]. destruct (j <? num)%nat; [done|]. symmetry. by apply foldl_same.
    - intros b Hb v. destruct ((b <=? j) && (j <? Nat.min (b + sb) num))%nat; [done|]. by apply foldl_same. }
  clear H s s'. intros s sblk s' Hsblk%starts_below H. set (send := Nat.min (sblk + sb) num) in *. assert (sblk < send)%nat as Hsend by (unfold send; lia).
  apply (loop_break_goes _ (fun i j acc => if ((sblk <=? j) && (j <? send))%nat then (if (c (i + blk) <=? j)%nat then acc ++ [(i + blk)%nat] else acc) else acc) (fun i => (send <=? c (i + blk))%nat)) in H; [exact H|..]; clear H s s'.
  - intros s i r Hi Hstop%Nat.leb_gt H. assert (i + blk <= n)%nat as Hib' by (unfold size in *; lia).
    fold (tp (i + blk)) in H. rewrite Hc in H by done. cbn [mbind option_bind] in H. set (first := Nat.max sblk (Nat.min (c (i + blk)) send)) in *.
    assert (c (i + blk) <= first < send)%nat as Hfirst by (unfold first; lia). assert (first = Nat.max sblk (c (i + blk))) as Ef by (unfold first; lia).
    rewrite (proj2 (Nat.eqb_neq (send - first) 0)) in H by lia. destruct (Bleb zero32 _) eqn:Hpos in H; [|done].
    destruct (_ <? _)%nat eqn:Hl in H; [done|]. rewrite list_lookup_fmap, lookup_seq_lt in H by lia. cbn [fmap option_fmap option_map mbind option_bind] in H. rewrite Nat.add_0_l, (Nat.add_comm blk i) in H.
    destruct (call _ _ _ _ _ _ _) as [s1|] eqn:Ec in H; [|done]. cbn [mbind option_bind] in H. injection H as <-. exists s1. split; [done|].
    apply Hcall in Ec as (x & -> & Hx); [|done|lia|lia|unfold send in *; lia|done]. eapply goes_ext; [|by apply added_goes]. intros j acc. cbv beta.
    replace (first + (send - first))%nat with send by lia.
    destruct (Nat.ltb_spec j send); rewrite ?andb_false_r, ?andb_true_r; [|done].
    destruct (Nat.leb_spec first j), (Nat.leb_spec sblk j), (Nat.leb_spec (c (i + blk)) j); try done; unfold first in *; lia.
  - intros s i r Hi Hstop%Nat.leb_le H. assert (i + blk <= n)%nat as Hib' by (unfold size in *; lia).
    fold (tp (i + blk)) in H. rewrite Hc in H by done. cbn [mbind option_bind] in H. rewrite (proj2 (Nat.eqb_eq _ 0)) in H by lia. by injection H as <-.
  - intros x y j v Hstop%Nat.leb_le _ Hy. assert (c (x + blk) <= c (y + blk))%nat as Hxy by (apply Hmono; unfold size in *; lia).
    destruct (Nat.leb_spec sblk j), (Nat.ltb_spec j send); simpl; try done. rewrite (proj2 (Nat.leb_gt (c (y + blk)) j)) by lia. done.
Qed.

(** The points that contribute to sample [j], in their order. *)
Lemma contributing j l acc : foldl (fun acc p => if (c p <=? j)%nat then acc ++ [p] else acc) acc l = acc ++ filter (fun p => (c p <= j)%nat) l.
Proof using.
  clear - c. revert acc. induction l as [|p l IH]; intros acc; cbn [foldl]; [by rewrite app_nil_r|]. rewrite IH. rewrite filter_cons. destruct (Nat.leb_spec (c p) j), (decide (c p <= j)%nat); try lia; [by rewrite <- app_assoc|done].
Qed.
Lemma loops_contributions signal s' : apply_accumulate_with call ib sb seg ts dt num weight signal = Some s' -> exists xs : nat -> list f32,
  s' = changed (fun j y => foldl plus y (xs j)) signal /\ (forall j, (num <= j)%nat -> xs j = []) /\
  forall j, (j < num)%nat -> Forall2 (fun p x => Con p j x) (filter (fun p => (c p <= j)%nat) (seq 0 (n + 1))) (xs j).
Proof.
  intros H%loops_sound. destruct H as (xs & qs & -> & Hq & HC). exists xs. split; [done|]. split.
  - intros j Hj. specialize (Hq j []). rewrite (proj2 (Nat.ltb_ge j num)) in Hq by lia. specialize (HC j). rewrite app_nil_l in Hq. rewrite <- Hq in HC. by inversion HC.
  - intros j Hj. specialize (Hq j []). rewrite (proj2 (Nat.ltb_lt j num)), contributing in Hq by lia. rewrite !app_nil_l in Hq. rewrite Hq. apply HC.
Qed.
End sound.
