(** C77: the tabulated profiles of the dipole application. *)
From Coq Require Import Reals Ascii Sorting.Sorted Lra Lia.
From stdpp Require Import base list list_numbers numbers option.
From Verif Require Import TableModel TableSpec.
Local Open Scope R_scope.

(** * Finding the rows next to an argument *)
Lemma find_bracket_cons a b rest x : find_bracket (a :: b :: rest) x = if Rle_dec a x then (if Rlt_dec x b then Some 0%nat else S <$> find_bracket (b :: rest) x) else S <$> find_bracket (b :: rest) x.
Proof. reflexivity. Qed.
Lemma find_some l x i : find_bracket l x = Some i -> exists a b, l !! i = Some a /\ l !! S i = Some b /\ a <= x < b.
Proof.
  revert i. induction l as [|a [|b rest] IH]; intros i H; [done|done|]. rewrite find_bracket_cons in H. destruct (Rle_dec a x) as [Ha|Ha].
  - destruct (Rlt_dec x b) as [Hb|Hb]; [injection H as <-; exists a, b; split_and!; auto|]. apply fmap_Some in H as (k & H & ->). destruct (IH _ H) as (c & d & Q). exists c, d. exact Q.
  - apply fmap_Some in H as (k & H & ->). destruct (IH _ H) as (c & d & Q). exists c, d. exact Q.
Qed.
Lemma find_exists l x a b : l !! 0%nat = Some a -> a <= x -> b ∈ l -> x < b -> exists i, find_bracket l x = Some i.
Proof.
  revert a. induction l as [|c [|d rest] IH]; intros a H Ha Hb Hx; [done|injection H as ->; apply elem_of_list_singleton in Hb; subst; lra|]. injection H as ->. rewrite find_bracket_cons. destruct (Rle_dec a x) as [_|Hn]; [|done]. destruct (Rlt_dec x d) as [Hd|Hd]; [by exists 0%nat|].
  apply elem_of_cons in Hb as [->|Hb]; [lra|]. destruct (IH d eq_refl ltac:(lra) Hb Hx) as [i ->]. by exists (S i).
Qed.

(** * The sorted table *)
Lemma reorder_map v inds : (forall i, i ∈ inds -> (i < length v)%nat) -> reorder v inds = Some (map (fun i => nth i v 0) inds).
Proof.
  intros H. unfold reorder. apply mapM_Some. induction inds as [|i inds IH]; constructor; [|apply IH; intros j Hj; apply H; by right].
  destruct (lookup_lt_is_Some_2 v i) as [y Hy]; [apply H; left|]. rewrite Hy. f_equal. symmetry. by apply nth_lookup_Some.
Qed.
Lemma zip_map {A B C} (f : A -> B) (g : A -> C) l : zip (map f l) (map g l) = map (fun i => (f i, g i)) l.
Proof. induction l as [|x l IH]; [reflexivity|]. simpl. by rewrite IH. Qed.
Lemma map_nth_seq (l : list R) : map (fun i => nth i l 0) (seq 0 (length l)) = l.
Proof. apply list_eq. intros i. rewrite list_lookup_fmap. destruct (decide (i < length l)%nat) as [Hi|Hi]; [rewrite lookup_seq_lt by exact Hi; simpl; destruct (lookup_lt_is_Some_2 l i Hi) as [y Hy]; rewrite Hy; f_equal; by apply nth_lookup_Some|]. rewrite lookup_seq_ge by lia. simpl. symmetry. apply lookup_ge_None_2. lia. Qed.
Lemma sorted_table zs ys sorter : length zs = length ys -> sorts zs sorter -> exists zs' ys', reorder zs sorter = Some zs' /\ reorder ys sorter = Some ys' /\ length zs' = length zs /\ length ys' = length ys /\ zip zs' ys' ≡ₚ zip zs ys /\ StronglySorted Rle zs'.
Proof.
  intros Hl [Hp Hs]. assert (forall i, i ∈ sorter -> (i < length zs)%nat) as Hi. { intros i Hin. rewrite Hp in Hin. apply elem_of_seq in Hin. lia. }
  exists (map (fun i => nth i zs 0) sorter), (map (fun i => nth i ys 0) sorter). pose proof (Permutation_length Hp) as Hlen. rewrite seq_length in Hlen.
  split; [by apply reorder_map|]. split; [apply reorder_map; intros i Hin; rewrite <- Hl; by apply Hi|]. rewrite !map_length. split; [exact Hlen|]. split; [lia|]. split.
  - rewrite zip_map, Hp. rewrite <- (zip_map (fun i => nth i zs 0)). rewrite map_nth_seq. rewrite Hl, map_nth_seq. reflexivity.
  - clear - Hs. induction Hs as [|i l _ IH H]; [constructor|]. simpl. constructor; [exact IH|]. apply Forall_map. rewrite Forall_forall in H |- *. intros j Hj. specialize (H j Hj). simpl in *. lra.
Qed.
Lemma sorted_lookup l i j a b : StronglySorted Rle l -> (i <= j)%nat -> l !! i = Some a -> l !! j = Some b -> a <= b.
Proof.
  intros Hs. revert i j. induction Hs as [|x l _ IH H]; intros i j Hij Ha Hb; [done|]. destruct i as [|i], j as [|j]; [injection Ha as ->; injection Hb as ->; lra| |lia|].
  - injection Ha as ->. simpl in Hb. rewrite Forall_forall in H. apply H. apply elem_of_list_In. by eapply elem_of_list_lookup_2.
  - simpl in Ha, Hb. apply (IH i j); [lia|assumption|assumption].
Qed.

(** lin_interp on a sorted table. *)
Lemma lin_interp_sorted zs ys x : length zs = length ys -> (2 <= length zs)%nat -> StronglySorted Rle zs ->
  (in_range (zip zs ys) x -> exists v, lin_interp zs ys x = Returns v /\ profile (zip zs ys) x v) /\ (~ in_range (zip zs ys) x -> lin_interp zs ys x = Throws).
Proof.
  intros Hl H2 Hs. unfold lin_interp. rewrite (proj2 (Nat.eqb_eq _ _) Hl), (proj2 (Nat.leb_le _ _) H2). cbn [andb].
  assert (forall i a, zs !! i = Some a -> exists y, ys !! i = Some y /\ (zip zs ys) !! i = Some (a, y)) as Hzip. { intros i a Ha. destruct (lookup_lt_is_Some_2 ys i) as [y Hy]; [rewrite <- Hl; by eapply lookup_lt_Some|]. exists y. split; [exact Hy|]. by apply lookup_zip_with_Some; exists a, y. }
  assert (forall p, p ∈ zip zs ys -> exists i, zs !! i = Some p.1 /\ ys !! i = Some p.2) as Hunzip. { intros [a y] Hin. apply elem_of_list_lookup_1 in Hin as [i Hin]. apply lookup_zip_with_Some in Hin as (a' & y' & [= <- <-] & ? & ?). eauto. }
  destruct (find_bracket zs x) as [i|] eqn:Hf.
  - destruct (find_some _ _ _ Hf) as (a & b & Ha & Hb & Hx). rewrite Ha, Hb. destruct (Hzip i a Ha) as (fa & Hfa & Pa). destruct (Hzip (S i) b Hb) as (fb & Hfb & Pb). rewrite Hfa, Hfb. split.
    + intros _. destruct (Rle_dec a x); [|lra]. destruct (Rle_dec (x - a) (b - a)); [|lra]. eexists. split; [reflexivity|]. exists (a, fa), (b, fb). split; [|reflexivity]. split; [by eapply elem_of_list_lookup_2|]. split; [by eapply elem_of_list_lookup_2|]. split; [exact Hx|]. intros p Hin. destruct (Hunzip p Hin) as (j & Hj & _). cbn [fst].
      destruct (decide (j <= i)%nat) as [Hji|Hji]; [left; exact (sorted_lookup zs j i _ _ Hs Hji Hj Ha)|right; exact (sorted_lookup zs (S i) j _ _ Hs ltac:(lia) Hb Hj)].
    + intros Hn. exfalso. apply Hn. split; [exists (a, fa)|exists (b, fb)]; (split; [by eapply elem_of_list_lookup_2|simpl; lra]).
  - split; [|done]. intros [(p & Hp & Hpx) (q & Hq & Hqx)]. exfalso. destruct (Hunzip p Hp) as (k & Hk & _). destruct (Hunzip q Hq) as (m & Hm & _). destruct (lookup_lt_is_Some_2 zs 0) as [a Ha]; [lia|].
    destruct (find_exists zs x a q.1 Ha) as [i Hi]; [|by eapply elem_of_list_lookup_2|exact Hqx|congruence]. pose proof (sorted_lookup zs 0 k _ _ Hs ltac:(lia) Ha Hk). lra.
Qed.

(** * The theorems *)
(** Whatever the order of the rows in the file and however they are sorted: in the range of the table the permittivity is the square of the index of refraction, which is linear between the rows; outside an
    exception is thrown. *)
Theorem C77_permittivity zs iors sorter z : length zs = length iors -> (2 <= length zs)%nat -> sorts zs sorter ->
  (in_range (zip zs iors) z -> exists ior, permittivity zs iors sorter z = Returns (ior ^ 2) /\ profile (zip zs iors) z ior) /\ (~ in_range (zip zs iors) z -> permittivity zs iors sorter z = Throws).
Proof.
  intros Hl H2 Hs. destruct (sorted_table zs iors sorter Hl Hs) as (zs' & ys' & E1 & E2 & L1 & L2 & HP & HS). unfold permittivity. rewrite E1, E2. cbn [defined obind]. destruct (lin_interp_sorted zs' ys' z) as [A B]; [lia|lia|exact HS|].
  assert (forall p, p ∈ zip zs' ys' <-> p ∈ zip zs iors) as Hin by (intros p; by rewrite HP).
  assert (in_range (zip zs iors) z <-> in_range (zip zs' ys') z) as Hr. { unfold in_range. split; intros [(p & ? & ?) (q & ? & ?)]; (split; [exists p|exists q]; split; try assumption; by apply Hin). }
  split.
  - intros Hz. destruct A as (v & -> & a & b & (Ia & Ib & Hab & Hall) & Hv); [by apply Hr|]. exists v. split; [reflexivity|]. exists a, b. split; [|exact Hv]. split; [by apply Hin|]. split; [by apply Hin|]. split; [exact Hab|]. intros p Hp. apply Hall. by apply Hin.
  - intros Hz. rewrite B; [reflexivity|]. by rewrite <- Hr.
Qed.

(** The value is determined by the table, if no two rows have the same argument. *)
Theorem C77_unique table x v w : NoDup table.*1 -> profile table x v -> profile table x w -> v = w.
Proof.
  intros Hd (a & b & (Ia & Ib & Hab & Hall) & ->) (a' & b' & (Ia' & Ib' & Hab' & Hall') & ->).
  assert (forall p q, p ∈ table -> q ∈ table -> p.1 = q.1 -> p = q) as Hinj. { clear - Hd. intros p q Hp Hq E. apply elem_of_list_lookup_1 in Hp as [i Hi], Hq as [j Hj]. assert (i = j) as ->; [|congruence]. eapply (NoDup_lookup table.*1); [exact Hd|by rewrite list_lookup_fmap, Hi|rewrite list_lookup_fmap, Hj; simpl; by rewrite E]. }
  assert (a = a') as <-. { apply Hinj; try assumption. destruct (Hall a' Ia'), (Hall' a Ia); lra. } assert (b = b') as <-. { apply Hinj; try assumption. destruct (Hall b' Ib'), (Hall' b Ib); lra. } reflexivity.
Qed.
(** At a row of the table the value is the one of the table, except at the largest argument, where the program throws. *)
Theorem C77_rows table p v : NoDup table.*1 -> p ∈ table -> profile table p.1 v -> v = p.2.
Proof.
  intros Hd Hp H. assert (exists b, b ∈ table /\ p.1 < b.1) as (b0 & _ & _). { destruct H as (a & b & (_ & Ib & Hab & _) & _). exists b. split; [exact Ib|lra]. }
  destruct H as (a & b & (Ia & Ib & Hab & Hall) & ->). assert (a = p) as ->. { assert (a.1 = p.1) as E by (destruct (Hall p Hp); lra). clear - Hd Ia Hp E. apply elem_of_list_lookup_1 in Ia as [i Hi], Hp as [j Hj]. assert (i = j) as ->; [|congruence]. eapply (NoDup_lookup table.*1); [exact Hd|by rewrite list_lookup_fmap, Hi|rewrite list_lookup_fmap, Hj; simpl; by rewrite E]. }
  unfold on_line. rewrite Rminus_eq_0, Rmult_0_r. lra.
Qed.
Theorem C77_last_row_refuted zs iors sorter p : length zs = length iors -> (2 <= length zs)%nat -> sorts zs sorter -> p ∈ zip zs iors -> (forall q, q ∈ zip zs iors -> q.1 <= p.1) -> permittivity zs iors sorter p.1 = Throws.
Proof. intros Hl H2 Hs Hp Hmax. apply C77_permittivity; [assumption..|]. intros [_ (q & Hq & Hlt)]. pose proof (Hmax q Hq). lra. Qed.
(** The value is between those of two rows; so if every index of refraction is at least [m], the permittivity is at least m^2. *)
Theorem C77_between table x v lo hi : (forall p, p ∈ table -> lo <= p.2 <= hi) -> profile table x v -> lo <= v <= hi.
Proof.
  intros Hb (a & b & (Ia & Ib & Hab & _) & ->). pose proof (Hb a Ia) as Ha. pose proof (Hb b Ib) as Hb'. unfold on_line. assert (0 < b.1 - a.1) as Hd by lra. set (s := (x - a.1) / (b.1 - a.1)). assert (0 <= s <= 1) as Hs. { unfold s. split; [apply Rmult_le_pos; [lra|left; by apply Rinv_0_lt_compat]|]. apply Rmult_le_reg_r with (b.1 - a.1); [exact Hd|]. unfold Rdiv. rewrite Rmult_assoc, Rinv_l, Rmult_1_r by lra. lra. }
  replace (a.2 + (b.2 - a.2) / (b.1 - a.1) * (x - a.1)) with ((1 - s) * a.2 + s * b.2) by (unfold s; field; lra).
  assert ((1 - s) * lo <= (1 - s) * a.2 <= (1 - s) * hi) as Q1 by (split; apply Rmult_le_compat_l; lra). assert (s * lo <= s * b.2 <= s * hi) as Q2 by (split; apply Rmult_le_compat_l; lra). lra.
Qed.
(** If two rows have the same argument, the result depends on how they are sorted. *)
Theorem C77_equal_arguments_refuted : exists zs iors s1 s2, sorts zs s1 /\ sorts zs s2 /\ permittivity zs iors s1 1 = Returns 4 /\ permittivity zs iors s2 1 = Returns 9.
Proof.
  assert (forall l, l ≡ₚ [0; 1; 2]%nat -> StronglySorted (fun i j => ~ nth j [1; 1; 2] 0 < nth i [1; 1; 2] 0) l -> sorts [1; 1; 2] l) as HS by (intros; by split).
  assert (forall f g h : R, lin_interp [1; 1; 2] [f; g; h] 1 = Returns g) as HL. { intros f g h. unfold lin_interp. cbn [length Nat.eqb Nat.leb andb]. rewrite !find_bracket_cons. destruct (Rle_dec 1 1); [|lra]. destruct (Rlt_dec 1 1); [lra|]. destruct (Rlt_dec 1 2); [|lra]. cbn [fmap option_fmap option_map lookup list_lookup]. destruct (Rle_dec 1 1); [|lra]. destruct (Rle_dec (1 - 1) (2 - 1)); [|lra]. f_equal. lra. }
  exists [1; 1; 2], [3; 2; 1], [0; 1; 2]%nat, [1; 0; 2]%nat. split; [apply HS; [reflexivity|]|split; [apply HS; [constructor|]|]].
  - repeat constructor; simpl; lra.
  - repeat constructor; simpl; lra.
  - unfold permittivity, reorder. cbn [mapM mret option_ret mbind option_bind lookup list_lookup defined obind]. rewrite !HL. cbn [obind]. split; f_equal; lra.
Qed.

(** The impulse response is zero outside of the table, and linear between its rows, if they are in order and the first one is not later than 0. *)
Theorem C77_impulse_response ts rs t t0 t_end : length ts = length rs -> (2 <= length ts)%nat -> StronglySorted Rle ts -> ts !! 0%nat = Some t0 -> ts !! pred (length ts) = Some t_end -> t0 <= 0 ->
  (t <= 0 \/ t_end <= t -> impulse_response ts rs t = Returns 0) /\ (0 < t < t_end -> exists v, impulse_response ts rs t = Returns v /\ profile (zip ts rs) t v).
Proof.
  intros Hl H2 Hs H0 He Ht0. unfold impulse_response. rewrite He. split.
  - intros [H|H]; destruct (Rle_dec t 0); try done. destruct (Rle_dec t_end t); [done|lra].
  - intros Ht. destruct (Rle_dec t 0); [lra|]. destruct (Rle_dec t_end t); [lra|]. apply lin_interp_sorted; [assumption..|].
    assert (forall i a, ts !! i = Some a -> exists y, (a, y) ∈ zip ts rs) as Hzip. { intros i a Ha. destruct (lookup_lt_is_Some_2 rs i) as [y Hy]; [rewrite <- Hl; by eapply lookup_lt_Some|]. exists y. eapply elem_of_list_lookup_2. apply lookup_zip_with_Some. eauto. }
    destruct (Hzip _ _ H0) as [y Hy]. destruct (Hzip _ _ He) as [y' Hy']. split; [exists (t0, y); simpl; split; [assumption|lra]|exists (t_end, y'); simpl; split; [assumption|lra]].
Qed.
(** If the table starts after 0, an exception is thrown for the times before its first row. *)
Theorem C77_late_table_refuted ts rs t t0 : length ts = length rs -> (2 <= length ts)%nat -> StronglySorted Rle ts -> ts !! 0%nat = Some t0 -> 0 < t < t0 -> impulse_response ts rs t = Throws.
Proof.
  intros Hl H2 Hs H0 Ht. unfold impulse_response. destruct (lookup_lt_is_Some_2 ts (pred (length ts))) as [e He]; [lia|]. rewrite He. pose proof (sorted_lookup ts 0 _ _ _ Hs ltac:(lia) H0 He). destruct (Rle_dec t 0); [lra|]. destruct (Rle_dec e t); [lra|].
  apply lin_interp_sorted; [assumption..|]. intros [(p & Hp & Hle) _]. apply elem_of_list_lookup_1 in Hp as [i Hp]. apply lookup_zip_with_Some in Hp as (a & b & -> & Ha & _). pose proof (sorted_lookup ts 0 _ _ _ Hs ltac:(lia) H0 Ha). simpl in Hle. lra.
Qed.
