From stdpp Require Import base list list_numbers numbers option.
From Verif Require Import IndexSpec LoopsModel LoopsProofs NDArrayModel.
From Coq Require Import Lia.

(** * Row-major rank *)
Fixpoint rank (sh x : list nat) : nat :=
  match sh, x with
  | _ :: sh', x0 :: x' => x0 * volume sh' + rank sh' x'
  | _, _ => 0
  end%nat.

Fixpoint unrank (sh : list nat) (k : nat) : list nat :=
  match sh with
  | [] => []
  | _ :: sh' => (k / volume sh')%nat :: unrank sh' (k mod volume sh')%nat
  end.

Lemma rank_bound sh x : in_shape sh x -> (rank sh x < volume sh)%nat.
Proof.
  revert x; induction sh as [|s sh IH]; intros x; simpl.
  - lia.
  - rewrite in_shape_cons. intros (x0 & x' & -> & Hx0 & Hx'). specialize (IH _ Hx').
    assert ((x0 + 1) * volume sh <= s * volume sh)%nat by (apply Nat.mul_le_mono_r; lia). lia.
Qed.

Lemma rank_inj sh x y : in_shape sh x -> in_shape sh y -> rank sh x = rank sh y -> x = y.
Proof.
  revert x y; induction sh as [|s sh IH]; intros x y; simpl.
  - rewrite !in_shape_nil. congruence.
  - rewrite !in_shape_cons. intros (x0 & x' & -> & Hx0 & Hx') (y0 & y' & -> & Hy0 & Hy') Heq.
    pose proof (rank_bound _ _ Hx'). pose proof (rank_bound _ _ Hy').
    destruct (Nat.lt_trichotomy x0 y0) as [Hl|[->|Hl]].
    + assert ((x0 + 1) * volume sh <= y0 * volume sh)%nat by (apply Nat.mul_le_mono_r; lia). lia.
    + f_equal. apply IH; auto. lia.
    + assert ((y0 + 1) * volume sh <= x0 * volume sh)%nat by (apply Nat.mul_le_mono_r; lia). lia.
Qed.

Lemma unrank_spec sh k : (k < volume sh)%nat -> in_shape sh (unrank sh k) /\ rank sh (unrank sh k) = k.
Proof.
  revert k; induction sh as [|s sh IH]; intros k; simpl.
  - rewrite in_shape_nil. intros. split; [done|lia].
  - intros Hk. assert (0 < volume sh)%nat by (destruct (volume sh); lia).
    destruct (IH (k mod volume sh)%nat) as [H1 H2]; [apply Nat.mod_upper_bound; lia|].
    split.
    + apply in_shape_cons. eexists _, _. split; [done|]. split; [|done].
      apply Nat.div_lt_upper_bound; lia.
    + rewrite H2. rewrite (Nat.div_mod k (volume sh)) at 3 by lia. lia.
Qed.

Lemma box_elems_rank sh k x :
  box_elems (replicate (length sh) 0%nat) sh !! k = Some x <-> in_shape sh x /\ rank sh x = k.
Proof.
  revert k x; induction sh as [|s sh IH]; intros k x.
  - simpl. rewrite in_shape_nil. destruct k; simpl; [|split; [done|lia]].
    split; [intros [= <-]; auto|intros [-> _]; done].
  - simpl. rewrite Nat.sub_0_r.
    assert (forall b0 n k, mjoin ((fun i => cons i <$> box_elems (replicate (length sh) 0%nat) sh) <$> seq b0 n) !! k = Some x
       <-> exists x0 x', x = x0 :: x' /\ (b0 <= x0 < b0 + n)%nat /\ in_shape sh x' /\ k = ((x0 - b0) * volume sh + rank sh x')%nat) as Hgen.
    { clear k. intros b0 n. revert b0; induction n as [|n IHn]; intros b0 k; simpl.
      - split; [done|]. intros (? & ? & ? & ? & ?). lia.
      - rewrite lookup_app_Some, IHn, list_lookup_fmap, fmap_length, box_elems_length_shape. split.
        + intros [(x' & Hx' & ->)%fmap_Some|[Hle (x0 & x' & -> & Hx0 & Hin & Hk)]].
          * apply IH in Hx' as [? <-]. exists b0, x'. split_and!; auto; lia.
          * exists x0, x'. split_and!; auto; try lia.
            replace (x0 - b0)%nat with (S (x0 - S b0))%nat by lia. simpl. lia.
        + intros (x0 & x' & -> & Hx0 & Hin & ->). pose proof (rank_bound _ _ Hin).
          destruct (decide (x0 = b0)) as [->|].
          * left. rewrite Nat.sub_diag. simpl. apply fmap_Some. exists x'. split; [|done]. by apply IH.
          * right. replace (x0 - b0)%nat with (S (x0 - S b0))%nat by lia. rewrite Nat.mul_succ_l. split; [generalize ((x0 - S b0) * volume sh)%nat; lia|].
            exists x0, x'. split_and!; auto; try lia. generalize ((x0 - S b0) * volume sh)%nat; lia. }
    rewrite Hgen, in_shape_cons. split.
    + intros (x0 & x' & -> & ? & ? & ->). split; [|by rewrite Nat.sub_0_r]. exists x0, x'. split_and!; auto; lia.
    + intros [(x0 & x' & -> & ? & ?) <-]. exists x0, x'. split_and!; auto; rewrite ?Nat.sub_0_r; done || lia.
Qed.

(** * Flat indices *)
Lemma fold_left_add_init l i : fold_left Nat.add l i = (i + fold_left Nat.add l 0)%nat.
Proof.
  revert i; induction l as [|x l IH]; intros i; simpl; [lia|]. rewrite (IH (i + x)%nat), (IH x). lia.
Qed.

Lemma flat_ind_off st off x : flat_ind st off x = (off + flat_ind st 0 x)%nat.
Proof. unfold flat_ind. apply fold_left_add_init. Qed.

Lemma flat_ind_cons s st x0 x off :
  flat_ind (s :: st) off (x0 :: x) = (off + x0 * s + flat_ind st 0 x)%nat.
Proof. unfold flat_ind. simpl. rewrite fold_left_add_init. lia. Qed.

Lemma strides_loop_volume sh : (strides_loop sh).2 = volume sh.
Proof.
  induction sh as [|s sh IH]; simpl; [done|]. destruct (strides_loop sh) as [st acc]. simpl in *. subst. lia.
Qed.

Lemma strides_loop_cons s sh : (strides_loop (s :: sh)).1 = volume sh :: (strides_loop sh).1.
Proof.
  simpl. rewrite <- strides_loop_volume. destruct (strides_loop sh) as [st acc]. done.
Qed.

Lemma compute_strides_generic vd sh : compute_strides vd sh = (fun s => s * vd)%nat <$> (strides_loop sh).1.
Proof.
  destruct sh as [|s0 [|s1 [|s2 sh]]]; try done; simpl; repeat f_equal; lia.
Qed.

Lemma compute_strides_cons vd s sh : compute_strides vd (s :: sh) = (volume sh * vd)%nat :: compute_strides vd sh.
Proof. by rewrite !compute_strides_generic, strides_loop_cons. Qed.

Lemma compute_strides_length vd sh : length (compute_strides vd sh) = length sh.
Proof.
  induction sh as [|s sh IH]; [done|]. rewrite compute_strides_cons. simpl. by rewrite IH.
Qed.

Lemma flat_ind_rank vd sh x : length x = length sh -> flat_ind (compute_strides vd sh) 0 x = (rank sh x * vd)%nat.
Proof.
  revert x; induction sh as [|s sh IH]; intros [|x0 x] Hl; simpl in Hl; try lia; [done|].
  rewrite compute_strides_cons, flat_ind_cons, IH by lia. simpl. lia.
Qed.

Lemma flat_ind_add st off s x :
  length s = length x -> (length x <= length st)%nat ->
  flat_ind st (flat_ind st off s) x = flat_ind st off (vadd s x).
Proof.
  revert s x off; induction st as [|t st IH]; intros s x off Hl Hst.
  - destruct x; simpl in Hst; [|lia]. by destruct s; simpl in *; [|lia].
  - destruct s as [|s0 s], x as [|x0 x]; simpl in Hl, Hst; try lia; [done|].
    unfold vadd in *. simpl. rewrite !flat_ind_cons.
    pose proof (IH s x 0%nat) as IH'. rewrite flat_ind_off in IH'.
    rewrite <- IH' by lia. lia.
Qed.

Lemma number_elements_volume sh : number_elements sh = volume sh.
Proof.
  unfold number_elements.
  assert (forall i, fold_left Nat.mul sh i = (i * volume sh)%nat) as H.
  { induction sh as [|s sh IH]; intros i; simpl; [lia|]. rewrite IH. lia. }
  rewrite H. lia.
Qed.

Lemma has_index_true sh x : has_index sh x = true <-> in_shape sh x.
Proof.
  revert x; induction sh as [|s sh IH]; intros x.
  - rewrite in_shape_nil. destruct x; simpl; split; congruence.
  - rewrite in_shape_cons. destruct x as [|x0 x]; simpl.
    + split; [done|]. by intros (? & ? & [=] & ?).
    + rewrite andb_true_iff, IH, Nat.ltb_lt. split; [eauto 10|]. by intros (? & ? & [= -> ->] & ? & ?).
Qed.

Lemma in_shape_forall2 sh x : in_shape sh x <-> Forall2 lt x sh.
Proof.
  revert x; induction sh as [|s sh IH]; intros x.
  - rewrite in_shape_nil. split; [intros ->; constructor|]. by inversion 1.
  - rewrite in_shape_cons. split.
    + intros (? & ? & -> & ? & ?). constructor; [done|]. by apply IH.
    + inversion 1; subst. eexists _, _. split_and!; eauto. by apply IH.
Qed.

Lemma in_box_forall2 b e x : in_box b e x <-> Forall2 le b x /\ Forall2 lt x e.
Proof.
  revert e x; induction b as [|b0 b IH]; intros [|e0 e] [|x0 x]; simpl; split; try tauto;
    try (intros [H1 H2]; inversion H1; inversion H2; done).
  - intros _; split; constructor.
  - intros [? ?%IH]. split; constructor; naive_solver lia.
  - intros [H1 H2]. inversion H1; inversion H2; subst. split; [lia|]. apply IH. done.
Qed.

(** * Blocks *)
Lemma block_lookup {A} (d : list A) p n v :
  block d p n = Some v -> length v = n /\ forall c, (c < n)%nat -> v !! c = d !! (p + c)%nat.
Proof.
  unfold block. destruct (Nat.leb_spec (p + n) (length d)); [|done]. intros [= <-]. split.
  - rewrite take_length, drop_length. lia.
  - intros c Hc. rewrite lookup_take by done. by rewrite lookup_drop.
Qed.

Lemma block_Some {A} (d : list A) p n : (p + n <= length d)%nat -> exists v, block d p n = Some v.
Proof. intros. unfold block. destruct (Nat.leb_spec (p + n) (length d)); [eauto|lia]. Qed.

Lemma block_is_Some_bound {A} (d : list A) p n v : block d p n = Some v -> (p + n <= length d)%nat.
Proof. unfold block. destruct (Nat.leb_spec (p + n) (length d)); done. Qed.

Lemma block_ext {A} (d d' : list A) p p' n :
  (p + n <= length d)%nat -> (p' + n <= length d')%nat ->
  (forall c, (c < n)%nat -> d !! (p + c)%nat = d' !! (p' + c)%nat) -> block d p n = block d' p' n.
Proof.
  intros H1 H2 H. destruct (block_Some d p n H1) as [v Hv], (block_Some d' p' n H2) as [v' Hv'].
  rewrite Hv, Hv'. f_equal. apply block_lookup in Hv as [Hl Hv], Hv' as [Hl' Hv'].
  apply list_eq. intros i. destruct (decide (i < n)%nat).
  - rewrite Hv, Hv' by done. auto.
  - rewrite !lookup_ge_None_2 by lia. done.
Qed.

Lemma set_block_Some {A} (d : list A) p v :
  (p + length v <= length d)%nat -> set_block d p v = Some (list_inserts p v d).
Proof. intros. unfold set_block. destruct (Nat.leb_spec (p + length v) (length d)); [done|lia]. Qed.

Definition covers {A} (o : nat * list A) (p : nat) : Prop := (o.1 <= p < o.1 + length o.2)%nat.

Global Instance covers_dec {A} (o : nat * list A) p : Decision (covers o p).
Proof. unfold covers. apply _. Defined.

Lemma set_blocks_spec {A} (ops : list (nat * list A)) d :
  (forall o, o ∈ ops -> (o.1 + length o.2 <= length d)%nat) ->
  exists d', foldM (fun d o => set_block d o.1 o.2) d ops = Some d' /\ length d' = length d /\
    (forall p, (forall o, o ∈ ops -> ~ covers o p) -> d' !! p = d !! p) /\
    (forall p v, (exists o, o ∈ ops /\ covers o p) ->
       (forall o, o ∈ ops -> covers o p -> o.2 !! (p - o.1)%nat = v) -> d' !! p = v).
Proof.
  revert d; induction ops as [|o ops IH]; intros d Hb; simpl.
  - exists d. split_and!; auto. intros p v (o & Ho & _). by apply elem_of_nil in Ho.
  - rewrite set_block_Some by (apply Hb; left). simpl.
    destruct (IH (list_inserts o.1 o.2 d)) as (d' & Hd' & Hlen & Hframe & Hhit).
    { intros o' Ho'. rewrite inserts_length. apply Hb. by right. }
    exists d'. rewrite Hd'. split_and!; auto.
    + by rewrite Hlen, inserts_length.
    + intros p Hp. rewrite Hframe by (intros o' ?; apply Hp; by right).
      assert (~ covers o p) as Hn by (apply Hp; left). unfold covers in Hn.
      destruct (decide (p < o.1)%nat).
      * by rewrite list_lookup_inserts_lt by lia.
      * by rewrite list_lookup_inserts_ge by lia.
    + intros p v Hex Hall.
      destruct (decide (Exists (fun o => covers o p) ops)) as [Hop|Hop].
      * apply Hhit; [by apply list.Exists_exists in Hop as (o' & ? & ?); eauto|]. intros o' ?. apply Hall. by right.
      * destruct Hex as (o' & Ho' & Hc). apply elem_of_cons in Ho' as [->|Ho'].
        2:{ exfalso. apply Hop. apply list.Exists_exists. eauto. }
        rewrite Hframe.
        2:{ intros o' Ho' Hc'. apply Hop. apply list.Exists_exists. eauto. }
        rewrite <- (Hall o) by (left || done). unfold covers in Hc.
        assert (o.1 + length o.2 <= length d)%nat by (apply Hb; left).
        rewrite list_lookup_inserts by lia. done.
Qed.

Lemma foldM_map {S B C} (f : S -> C -> option S) (g : B -> C) s l :
  foldM (fun s b => f s (g b)) s l = foldM f s (g <$> l).
Proof. revert s; induction l as [|b l IH]; intros s; simpl; [done|]. destruct (f s (g b)); simpl; auto. Qed.

Lemma foldM_ext_in {S B} (f g : S -> B -> option S) s l :
  (forall s b, b ∈ l -> f s b = g s b) -> foldM f s l = foldM g s l.
Proof.
  revert s; induction l as [|b l IH]; intros s H; simpl; [done|].
  rewrite H by left. destruct (g s b); simpl; [|done]. apply IH. intros; apply H; by right.
Qed.

Lemma foldM_app {S B} (f : S -> B -> option S) s l1 l2 :
  foldM f s (l1 ++ l2) = s' ← foldM f s l1; foldM f s' l2.
Proof. revert s; induction l1 as [|b l IH]; intros s; simpl; [done|]. destruct (f s b); simpl; auto. Qed.

(** * Row chunks *)
Lemma chunk_steps_one fuel b e : (e - b <= fuel)%nat ->
  chunk_steps fuel b e 1 = Some ((fun i => (i, S i)) <$> seq b (e - b)).
Proof.
  revert b; induction fuel as [|f IH]; intros b Hf; simpl.
  - destruct (Nat.ltb_spec b e); [lia|]. by replace (e - b)%nat with 0%nat by lia.
  - destruct (Nat.ltb_spec b e).
    + replace (Nat.min (b + 1) e) with (S b) by lia. rewrite IH by lia. simpl.
      replace (e - b)%nat with (S (e - S b)) by lia. done.
    + by replace (e - b)%nat with 0%nat by lia.
Qed.

Lemma chunk_steps_single fuel b e : (e - b <= fuel)%nat ->
  chunk_steps fuel b e (e - b) = Some (if (b <? e)%nat then [(b, e)] else []).
Proof.
  intros Hf. destruct fuel as [|f]; simpl.
  - destruct (Nat.ltb_spec b e); [lia|done].
  - destruct (Nat.ltb_spec b e); [|done]. replace (Nat.min (b + (e - b)) e) with e by lia.
    destruct f; simpl; destruct (Nat.ltb_spec e e); try lia; done.
Qed.

Definition rows (pb pe : list nat) (b0 e0 : nat) : list (list nat * list nat) :=
  if (b0 <? e0)%nat then (fun p => (p ++ [b0], (S <$> p) ++ [e0])) <$> box_elems pb pe else [].

Lemma mapM_nil_join {A B} (f : A -> option (list B)) l :
  (forall x, x ∈ l -> f x = Some []) -> exists r, mapM f l = Some r /\ mjoin r = [].
Proof.
  induction l as [|x l IH]; intros H; simpl; [by exists []|].
  rewrite H by left. simpl. destruct IH as (r & -> & Hr); [intros; apply H; by right|].
  simpl. exists ([] :: r). done.
Qed.

Lemma chunk_loop_dim_rows fuel cb ce pb pe b0 e0 :
  length pb = length pe -> (loop_fuel (pe ++ [e0]) <= fuel)%nat ->
  chunk_loop_dim fuel cb ce (pb ++ [b0]) (pe ++ [e0]) (replicate (length pb) 1%nat ++ [(e0 - b0)%nat]) =
  Some (if (b0 <? e0)%nat then (fun p => (cb ++ p ++ [b0], ce ++ (S <$> p) ++ [e0])) <$> box_elems pb pe else []).
Proof.
  revert cb ce pe; induction pb as [|p0 pb IH]; intros cb ce [|q0 pe] Hlen Hf; try (simpl in *; lia).
  - simpl in Hf. cbn [app length replicate chunk_loop_dim].
    rewrite chunk_steps_single by lia. destruct (Nat.ltb_spec b0 e0); done.
  - cbn [app length replicate chunk_loop_dim]. simpl in Hf, Hlen.
    rewrite chunk_steps_one by lia. cbn [mbind option_bind].
    destruct (Nat.ltb_spec b0 e0) as [Hb|Hb].
    + rewrite (mapM_Some_const _ (fun s : nat * nat => (fun p => ((cb ++ [s.1]) ++ p ++ [b0], (ce ++ [s.2]) ++ (S <$> p) ++ [e0])) <$> box_elems pb pe)).
      2:{ intros s _. rewrite IH by lia. destruct (Nat.ltb_spec b0 e0); [done|lia]. }
      cbn. f_equal. rewrite fmap_mjoin, <- !list_fmap_compose. f_equal.
      apply list_fmap_ext. intros ? i _. cbn. rewrite <- list_fmap_compose.
      apply list_fmap_ext. intros ? r _. cbn. by rewrite <- !app_assoc.
    + edestruct (mapM_nil_join (fun s : nat * nat => chunk_loop_dim fuel (cb ++ [s.1]) (ce ++ [s.2]) (pb ++ [b0]) (pe ++ [e0])
          (replicate (length pb) 1%nat ++ [(e0 - b0)%nat]))) as (r & -> & Hr); [|cbn; by rewrite Hr].
      intros s _. rewrite IH by lia. destruct (Nat.ltb_spec b0 e0); [lia|done].
Qed.

Lemma chunk_loop_rows fuel pb pe b0 e0 :
  length pb = length pe -> (loop_fuel (pe ++ [e0]) <= fuel)%nat ->
  chunk_loop fuel (pb ++ [b0]) (pe ++ [e0]) (replicate (length pb) 1%nat ++ [(e0 - b0)%nat]) = Some (rows pb pe b0 e0).
Proof. intros. unfold chunk_loop. by rewrite chunk_loop_dim_rows. Qed.

Lemma vlast_app l x : vlast (l ++ [x]) = x.
Proof. unfold vlast. apply last_last. Qed.

Lemma list_snoc {A} (l : list A) : l <> [] -> exists p x, l = p ++ [x].
Proof. intros H. destruct (exists_last H) as (p & x & ->). eauto. Qed.

Lemma in_box_snoc b b0 e e0 x x0 :
  length b = length x -> length e = length x ->
  in_box (b ++ [b0]) (e ++ [e0]) (x ++ [x0]) <-> in_box b e x /\ (b0 <= x0 < e0)%nat.
Proof.
  revert e x; induction b as [|b1 b IH]; intros [|e1 e] [|x1 x] H1 H2; simpl in *; try lia.
  rewrite IH by lia. tauto.
Qed.

Lemma rank_snoc sh s x x0 : length x = length sh -> rank (sh ++ [s]) (x ++ [x0]) = (rank sh x * s + x0)%nat.
Proof.
  revert x; induction sh as [|s1 sh IH]; intros [|x1 x] Hl; simpl in *; try lia.
  rewrite IH by lia.
  assert (volume (sh ++ [s]) = volume sh * s)%nat as ->; [|lia].
  clear. induction sh; simpl; lia.
Qed.

Lemma flat_ind_snoc st t off x x0 :
  length x = length st -> flat_ind (st ++ [t]) off (x ++ [x0]) = (flat_ind st off x + x0 * t)%nat.
Proof.
  revert x off; induction st as [|t1 st IH]; intros [|x1 x] off Hl; simpl in Hl; try lia.
  - simpl. unfold flat_ind. simpl. lia.
  - simpl. rewrite !flat_ind_cons, IH by lia. lia.
Qed.

(** * Well-formed arrays *)
(** An array that owns its data, as produced by constructors and [resize]. *)
Definition wf_owned {A} (vd : nat) (a : ndarr A) : Prop :=
  a_shape a <> [] /\ a_strides a = compute_strides vd (a_shape a) /\ a_off a = 0%nat /\
  length (a_data a) = compute_volume vd (a_shape a) /\ a_owns a = true.

(** An array or view all of whose elements lie inside its storage; the
    innermost stride is [vd]. *)
Definition wf {A} (vd : nat) (a : ndarr A) : Prop :=
  (exists st, a_strides a = st ++ [vd] /\ S (length st) = length (a_shape a)) /\
  forall x, in_shape (a_shape a) x -> (flat_ind (a_strides a) (a_off a) x + vd <= length (a_data a))%nat.

Lemma compute_strides_snoc vd sh : sh <> [] -> exists st, compute_strides vd sh = st ++ [vd] /\ S (length st) = length sh.
Proof.
  induction sh as [|s sh IH]; [done|]. intros _. destruct sh as [|s' sh].
  - exists []. done.
  - destruct IH as (st & Hst & Hl); [done|]. rewrite compute_strides_cons, Hst.
    exists ((volume (s' :: sh) * vd)%nat :: st). split; [done|]. simpl in *. lia.
Qed.

Lemma wf_owned_wf {A} vd (a : ndarr A) : wf_owned vd a -> wf vd a.
Proof.
  intros (Hne & Hst & Hoff & Hlen & _). split.
  - rewrite Hst. by apply compute_strides_snoc.
  - intros x Hx. rewrite Hst, Hoff, Hlen, flat_ind_rank by (by apply in_shape_length).
    unfold compute_volume. rewrite number_elements_volume. pose proof (rank_bound _ _ Hx).
    assert ((rank (a_shape a) x + 1) * vd <= volume (a_shape a) * vd)%nat by (apply Nat.mul_le_mono_r; lia). lia.
Qed.

Lemma aread_Some {A} vd (a : ndarr A) x : wf vd a -> in_shape (a_shape a) x -> exists v, aread vd a x = Some v /\ length v = vd.
Proof.
  intros [_ Hwf] Hx. unfold aread. rewrite (proj2 (has_index_true _ _) Hx).
  destruct (block_Some (a_data a) (flat_ind (a_strides a) (a_off a) x) vd) as [v Hv]; [by apply Hwf|].
  exists v. split; [done|]. by apply block_lookup in Hv as [? _].
Qed.

Lemma aread_eq {A} vd (a : ndarr A) x : in_shape (a_shape a) x ->
  aread vd a x = block (a_data a) (flat_ind (a_strides a) (a_off a) x) vd.
Proof. intros Hx. unfold aread. by rewrite (proj2 (has_index_true _ _) Hx). Qed.

Lemma anew_wf {A} vd (junk : A) sh : sh <> [] -> wf_owned vd (anew vd junk sh).
Proof. intros. unfold anew, wf_owned; simpl. rewrite replicate_length. auto. Qed.

Lemma vresize_length {A} (junk : A) n l : length (vresize junk n l) = n.
Proof. unfold vresize. rewrite app_length, take_length, replicate_length. lia. Qed.

Lemma aresize_wf {A} vd (junk : A) sh a a' : sh <> [] -> aresize vd junk sh a = Some a' -> wf_owned vd a' /\ a_shape a' = sh.
Proof.
  unfold aresize. intros Hne. destruct (a_owns a); [|done]. intros [= <-]. unfold wf_owned; simpl.
  rewrite vresize_length. auto 10.
Qed.
