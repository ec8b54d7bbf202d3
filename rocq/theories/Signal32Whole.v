(** C75: the whole signal in 32-bit floats. *)
From stdpp Require Import base list list_numbers numbers option.
From Coq Require Import Reals ZArith Bool Lra Lia.
From Flocq Require Import Core IEEE754.BinarySingleNaN.
From Verif Require Import NDArrayModel BBoxModel ChunkMetaModel InterpModel SignalModel AntennaModel AntennaSpec AntennaProps DiscreteModel DiscreteSpec DiscreteProps.
From Verif Require Import Interp32Model Interp32Spec Interp32Weights Signal32Model Signal32Spec Signal32Props.
Local Open Scope R_scope.

(** * Specification *)
(** Every element [y] at position [j] of the signal is changed to [f j y]. *)
Definition changed {A} (f : nat -> A -> A) (signal : list A) : list A := imap f signal.
(** The weight of point [p] of a track with [n] intervals in the trapezoidal rule. *)
Definition trapezoid32 (n p : nat) : f32 := if ((p =? 0) || (p =? n))%nat then half32 else one32.

(** * Lists *)
Lemma changed_length {A} f (s : list A) : length (changed f s) = length s. Proof. apply imap_length. Qed.
Lemma changed_ext {A} f g (s : list A) : (forall j y, f j y = g j y) -> changed f s = changed g s.
Proof. intros H. unfold changed. apply list_eq. intros j. rewrite !list_lookup_imap. destruct (s !! j); [|done]. simpl. by rewrite H. Qed.
Lemma changed_id {A} (s : list A) : changed (fun _ y => y) s = s.
Proof. unfold changed. apply list_eq. intros j. rewrite !list_lookup_imap. by destruct (s !! j). Qed.
Lemma changed_changed {A} f g (s : list A) : changed g (changed f s) = changed (fun j y => g j (f j y)) s.
Proof. unfold changed. apply list_eq. intros j. rewrite !list_lookup_imap. by destruct (s !! j). Qed.
Lemma foldM_changed {A B} (f : list A -> B -> option (list A)) (h : B -> nat -> A -> A) L (l : list B) signal :
  (forall s x, x ∈ l -> length s = L -> f s x = Some (changed (h x) s)) -> length signal = L ->
  foldM f signal l = Some (changed (fun j y => foldl (fun y x => h x j y) y l) signal).
Proof.
  revert signal. induction l as [|x l IH]; intros signal Hf HL.
  - cbn [foldM foldl]. f_equal. symmetry. apply changed_id.
  - cbn [foldM]. rewrite Hf by (done || left). cbn [mbind option_bind].
    rewrite IH; [|intros; apply Hf; [by right|done]|by rewrite changed_length]. f_equal. rewrite changed_changed. by apply changed_ext.
Qed.
Lemma foldl_same {A B} (f : A -> B -> A) l y : (forall x, x ∈ l -> forall y, f y x = y) -> foldl f y l = y.
Proof. revert y. induction l as [|x l IH]; intros y H; [done|]. cbn [foldl]. rewrite H by left. apply IH. intros. apply H. by right. Qed.
Lemma foldl_ext_in {A B} (f g : A -> B -> A) l y : (forall x, x ∈ l -> forall y, f y x = g y x) -> foldl f y l = foldl g y l.
Proof. revert y. induction l as [|x l IH]; intros y H; [done|]. cbn [foldl]. rewrite H by left. apply IH. intros. apply H. by right. Qed.
Lemma loop_break_changed {A} (f : list A -> nat -> option (list A + list A)) (h : nat -> nat -> A -> A) (stop : nat -> bool) L k a signal :
  (forall s x, (a <= x < a + k)%nat -> length s = L -> stop x = false -> f s x = Some (inl (changed (h x) s))) ->
  (forall s x, (a <= x < a + k)%nat -> stop x = true -> f s x = Some (inr s)) ->
  (forall x y j v, stop x = true -> (a <= x)%nat -> (x <= y < a + k)%nat -> h y j v = v) -> length signal = L ->
  loop_break f signal (seq a k) = Some (changed (fun j y => foldl (fun y x => h x j y) y (seq a k)) signal).
Proof.
  revert a signal. induction k as [|k IH]; intros a signal H1 H2 H3 HL.
  - cbn [seq loop_break foldl]. f_equal. symmetry. apply changed_id.
  - cbn [seq loop_break]. destruct (stop a) eqn:Hs.
    + rewrite H2 by (done || lia). cbn [mbind option_bind]. f_equal. rewrite <- (changed_id signal) at 1. apply changed_ext. intros j y. symmetry.
      change (a :: seq (S a) k) with (seq a (S k)). apply foldl_same. intros x Hx%elem_of_seq v. apply (H3 a); [done|lia|lia].
    + rewrite H1 by (done || lia). cbn [mbind option_bind]. rewrite IH.
      * f_equal. rewrite changed_changed. by apply changed_ext.
      * intros. apply H1; [lia|done..].
      * intros. apply H2; [lia|done].
      * intros x y j v Hx Hy1 Hy. apply (H3 x); [done|lia|lia].
      * by rewrite changed_length.
Qed.
Lemma fold_sample_blocks {A} fuel s n B (g : nat -> A -> A) j y : (1 <= B)%nat -> (n - s * B <= fuel)%nat ->
  foldl (fun y b => if ((b <=? j) && (j <? Nat.min (b + B) n))%nat then g b y else y) y (starts fuel (s * B) n B) = if ((s * B <=? j) && (j <? n))%nat then g (j / B * B)%nat y else y.
Proof.
  intros HB. revert s y. induction fuel as [|fuel IH]; intros s y Hf.
  - cbn [starts foldl]. destruct (Nat.leb_spec (s * B) j), (Nat.ltb_spec j n); simpl; try done; lia.
  - cbn [starts]. destruct (Nat.ltb_spec (s * B) n).
    + cbn [foldl]. replace (s * B + B)%nat with (S s * B)%nat by lia. rewrite IH by lia.
      destruct (Nat.leb_spec (s * B) j), (Nat.ltb_spec j n), (Nat.ltb_spec j (Nat.min (S s * B) n)), (Nat.leb_spec (S s * B) j); simpl; try lia; try done.
      assert (j / B = s)%nat as ->; [|done]. symmetry. apply (Nat.div_unique _ _ _ (j - s * B)); lia.
    + cbn [foldl]. destruct (Nat.leb_spec (s * B) j), (Nat.ltb_spec j n); simpl; try done; lia.
Qed.
Lemma fold_itgr_blocks {A} fuel s n B (f : nat -> A -> A) y : (1 <= B)%nat -> (n - s <= fuel)%nat ->
  foldl (fun y b => foldl (fun y i => f (i + b)%nat y) y (seq 0 (Nat.min B (n - b)))) y (starts fuel s n B) = foldl (fun y p => f p y) y (seq s (n - s)).
Proof.
  intros HB. assert (forall b m y, foldl (fun y i => f (i + b)%nat y) y (seq 0 m) = foldl (fun y p => f p y) y (seq b m)) as Hshift.
  { intros b m. assert (forall a v, foldl (fun y i => f (i + b)%nat y) v (seq a m) = foldl (fun y p => f p y) v (seq (a + b) m)) as H; [|apply H]. induction m as [|m IH]; intros a v; [done|]. cbn [seq foldl]. rewrite IH. done. }
  revert s y. induction fuel as [|fuel IH]; intros s y Hf.
  - replace (n - s)%nat with 0%nat by lia. done.
  - cbn [starts]. destruct (Nat.ltb_spec s n).
    + cbn [foldl]. rewrite IH by lia. rewrite Hshift. destruct (Nat.le_gt_cases B (n - s)).
      * rewrite Nat.min_l by done. replace (n - s)%nat with (B + (n - (s + B)))%nat by lia. by rewrite seq_app, foldl_app.
      * rewrite Nat.min_r by lia. replace (n - (s + B))%nat with 0%nat by lia. done.
    + replace (n - s)%nat with 0%nat by lia. done.
Qed.
Lemma starts_below fuel s n B b : b ∈ starts fuel s n B -> (b < n)%nat.
Proof.
  revert s. induction fuel as [|fuel IH]; intros s; cbn [starts]; [intros H; inversion H|]. destruct (Nat.ltb_spec s n); [|intros H'; inversion H'].
  intros [->|H']%elem_of_cons; [done|]. by eapply IH.
Qed.
Lemma fill_weights32_spec a m n : (0 < m)%nat -> (0 < n)%nat -> (a + m <= n + 1)%nat -> fill_weights32 a (a + m) (n + 1) m = Some ((fun i => trapezoid32 n (a + i)) <$> seq 0 m).
Proof.
  intros Hm Hn Hb. unfold fill_weights32. replace (a + m - a)%nat with m by lia. rewrite Nat.eqb_refl. cbv zeta.
  assert ((if (a =? 0)%nat then put32 (replicate m one32) 0 half32 else Some (replicate m one32)) = Some (if decide (a = 0)%nat then <[0%nat := half32]> (replicate m one32) else replicate m one32)) as ->.
  { destruct (Nat.eqb_spec a 0), (decide (a = 0)%nat); try done. unfold put32. destruct (Nat.ltb_spec 0 (length (replicate m one32))); [done|]. rewrite replicate_length in *. lia. }
  cbn [mbind option_bind]. set (w := if decide (a = 0)%nat then _ else _). assert (length w = m) as Hw by (unfold w; destruct (decide (a = 0)%nat); rewrite ?insert_length; apply replicate_length).
  assert ((if (a + m =? n + 1)%nat then (if (m =? 0)%nat then None else put32 w (m - 1) half32) else Some w) = Some (if decide (a + m = n + 1)%nat then <[(m - 1)%nat := half32]> w else w)) as ->.
  { destruct (Nat.eqb_spec (a + m) (n + 1)), (decide (a + m = n + 1)%nat); try done. destruct (Nat.eqb_spec m 0); [lia|]. unfold put32. rewrite Hw. destruct (Nat.ltb_spec (m - 1) m); [done|lia]. }
  f_equal. apply list_eq_same_length with m.
  { by rewrite fmap_length, seq_length. }
  { destruct (decide (a + m = n + 1)%nat); rewrite ?insert_length; exact Hw. }
  intros i x y Hi Hx Hy. rewrite list_lookup_fmap, lookup_seq_lt in Hy by done. cbn [fmap option_fmap option_map] in Hy. injection Hy as <-. unfold trapezoid32.
  assert (forall i, w !! i = Some x -> (i < m)%nat -> x = if ((a =? 0) && (i =? 0))%nat then half32 else one32) as Hwi.
  { intros i' H' Hi'. unfold w in H'. destruct (decide (a = 0)%nat) as [Ea|Na].
    - rewrite Ea, Nat.eqb_refl. cbn [andb]. destruct (Nat.eqb_spec i' 0) as [->|Hz]; [rewrite list_lookup_insert in H' by (rewrite replicate_length; lia); congruence|]. rewrite list_lookup_insert_ne, lookup_replicate_2 in H' by lia. congruence.
    - rewrite (proj2 (Nat.eqb_neq a 0)) by done. cbn [andb]. rewrite lookup_replicate_2 in H' by lia. congruence. }
  assert ((a + i =? 0) = (a =? 0) && (i =? 0))%nat as ->. { destruct (Nat.eqb_spec (a + i) 0), (Nat.eqb_spec a 0), (Nat.eqb_spec i 0); try done; lia. }
  destruct (decide (a + m = n + 1)%nat) as [E|E].
  - destruct (Nat.eqb_spec (a + i) n) as [E'|E'].
    + assert (i = m - 1)%nat as -> by lia. rewrite list_lookup_insert in Hx by lia. rewrite orb_true_r. congruence.
    + rewrite list_lookup_insert_ne in Hx by lia. rewrite orb_false_r. by apply Hwi.
  - rewrite (proj2 (Nat.eqb_neq (a + i) n)) by lia. rewrite orb_false_r. by apply Hwi.
Qed.

(** * The loops *)
Section loops.
Context {A : Type} (call : f32 * f32 -> f32 -> nat -> f32 * f32 -> nat -> f32 -> list A -> option (list A)) (ib sb : nat) (seg : segment32) (ts dt : f32) (num n : nat) (weight : f32) (L : nat).
Context (c : nat -> nat) (e : nat -> nat -> nat -> A -> A).
Let step := itgr_step32 (s32_t0 seg) (s32_t1 seg) (N.of_nat n).
Let tp p := itgr_time32 (s32_t0 seg) step p.
Context (Hib : (1 <= ib)%nat) (Hsb : (1 <= sb)%nat) (Hn : (0 < n)%nat) (HL : (num <= L)%nat).
Context (Hint : num_intervals32 (s32_t0 seg) (s32_t1 seg) = Some (N.of_nat n)).
Context (Hc : forall p, (p <= n)%nat -> causal_sample32 (tp p) ts dt = Some (c p)).
Context (Hmono : forall p q, (p <= q)%nat -> (q <= n)%nat -> (c p <= c q)%nat).
Context (Hpos : forall p j, (p <= n)%nat -> (c p <= j)%nat -> (j < num)%nat -> Bleb zero32 (conv_start32 (tp p) ts dt j) = true).
Context (Hcall : forall p first m signal, (p <= n)%nat -> (c p <= first)%nat -> (0 < m)%nat -> (first + m <= num)%nat -> length signal = L ->
  call (coord_cyl32 (position32 seg step p)) (conv_start32 (tp p) ts dt first) m (field_cyl32 (source32 seg) (position32 seg step p)) first (point_weight32 (trapezoid32 n p) step weight) signal
  = Some (changed (fun j y => if ((first <=? j) && (j <? first + m))%nat then e p first j y else y) signal)).

Lemma loops_spec signal : length signal = L ->
  apply_accumulate_with call ib sb seg ts dt num weight signal
  = Some (changed (fun j y => if (j <? num)%nat then foldl (fun y p => if (c p <=? j)%nat then e p (Nat.max (j / sb * sb) (c p)) j y else y) y (seq 0 (n + 1)) else y) signal).
Proof.
  intros Hlen. unfold apply_accumulate_with. rewrite Hint. cbn [mbind option_bind]. rewrite Nat2N.id. fold step.
  set (h := fun blk j y => foldl (fun y i => if (j <? num)%nat then (if (c (i + blk) <=? j)%nat then e (i + blk)%nat (Nat.max (j / sb * sb) (c (i + blk))) j y else y) else y) y (seq 0 (Nat.min ib (n + 1 - blk)))).
  rewrite (foldM_changed _ h L); [| |done].
  { f_equal. apply changed_ext. intros j y. unfold h. rewrite (fold_itgr_blocks _ _ _ _ (fun p y => if (j <? num)%nat then (if (c p <=? j)%nat then e p (Nat.max (j / sb * sb) (c p)) j y else y) else y)) by lia.
    rewrite Nat.sub_0_r. destruct (j <? num)%nat; [done|]. by apply foldl_same. }
  intros s blk Hblk%starts_below Hs. cbv zeta. set (size := Nat.min ib (n + 1 - blk)). rewrite fill_weights32_spec by (unfold size; lia). cbn [mbind option_bind].
  set (h1 := fun sblk j y => foldl (fun y i => if ((sblk <=? j) && (j <? Nat.min (sblk + sb) num))%nat then (if (c (i + blk) <=? j)%nat then e (i + blk)%nat (Nat.max sblk (c (i + blk))) j y else y) else y) y (seq 0 size)).
  rewrite (foldM_changed _ h1 L); [| |done].
  { f_equal. apply changed_ext. intros j y. unfold h1, h. fold size.
    rewrite (foldl_ext_in _ (fun y b => if ((b <=? j) && (j <? Nat.min (b + sb) num))%nat then foldl (fun y i => if (c (i + blk) <=? j)%nat then e (i + blk)%nat (Nat.max b (c (i + blk))) j y else y) y (seq 0 size) else y)).
    - rewrite (fold_sample_blocks _ 0 _ _ (fun b y => foldl (fun y i => if (c (i + blk) <=? j)%nat then e (i + blk)%nat (Nat.max b (c (i + blk))) j y else y) y (seq 0 size))) by lia.
      cbn [Nat.mul Nat.leb andb]. destruct (j <? num)%nat; [done|]. symmetry. by apply foldl_same.
    - intros b Hb v. destruct ((b <=? j) && (j <? Nat.min (b + sb) num))%nat; [done|]. by apply foldl_same. }
  intros s' sblk Hsblk%starts_below Hs'. set (send := Nat.min (sblk + sb) num). assert (sblk < send)%nat as Hsend by (unfold send; lia).
  rewrite (loop_break_changed _ (fun i j y => if ((sblk <=? j) && (j <? send))%nat then (if (c (i + blk) <=? j)%nat then e (i + blk)%nat (Nat.max sblk (c (i + blk))) j y else y) else y) (fun i => (send <=? c (i + blk))%nat) L); [done|..|done].
  - intros s2 i Hi Hs2 Hstop%Nat.leb_gt. assert (i + blk <= n)%nat as Hib' by (unfold size in *; lia).
    fold (tp (i + blk)). rewrite Hc by done. cbn [mbind option_bind]. set (first := Nat.max sblk (Nat.min (c (i + blk)) send)).
    assert (c (i + blk) <= first < send)%nat as Hfirst by (unfold first; lia). assert (first = Nat.max sblk (c (i + blk))) as Ef by (unfold first; lia).
    rewrite (proj2 (Nat.eqb_neq (send - first) 0)) by lia. rewrite Hpos by (unfold send in *; lia).
    rewrite (proj2 (Nat.ltb_ge _ _)) by (unfold send in *; lia).
    rewrite list_lookup_fmap, lookup_seq_lt by lia. cbn [fmap option_fmap option_map mbind option_bind]. rewrite Nat.add_0_l, (Nat.add_comm blk i).
    rewrite Hcall by (unfold send in *; lia || done). cbn [mbind option_bind]. do 2 f_equal. apply changed_ext. intros j y.
    replace (first + (send - first))%nat with send by lia.
    destruct (Nat.ltb_spec j send); rewrite ?andb_false_r, ?andb_true_r; [|done].
    destruct (Nat.leb_spec first j), (Nat.leb_spec sblk j), (Nat.leb_spec (c (i + blk)) j); rewrite <- ?Ef; try done; unfold first in *; lia.
  - intros s2 i Hi Hstop%Nat.leb_le. assert (i + blk <= n)%nat as Hib' by (unfold size in *; lia).
    fold (tp (i + blk)). rewrite Hc by done. cbn [mbind option_bind]. rewrite (proj2 (Nat.eqb_eq _ 0)) by lia. done.
  - intros x y j v Hstop%Nat.leb_le _ Hy. assert (c (x + blk) <= c (y + blk))%nat as Hxy by (apply Hmono; unfold size in *; lia).
    destruct (Nat.leb_spec sblk j), (Nat.ltb_spec j send); simpl; try done. rewrite (proj2 (Nat.leb_gt (c (y + blk)) j)) by lia. done.
Qed.
End loops.
