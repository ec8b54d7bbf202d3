(** Proofs about the distributed array, part 5: hull and shape. *)
From stdpp Require Import base list list_numbers numbers option gmap countable sets.
From Coq Require Import NArith Lia.
From Verif Require Import IndexSpec LoopsProofs NDArrayModel NDArrayProps StreamerProps BBoxModel BBoxProps DownsampleModel DownsampleProps
  RTreeModel RTreeInsert RTreeRebuild RTreeProps ChunkMetaModel ChunkMetaProps ChunkCacheModel ChunkCacheSpec ChunkCacheProofs2 ChunkCacheProps
  LibraryModel LibrarySpec LibraryProofs LibraryProofs2 LibraryProofs3 LibraryProofs4.

(** ** Counting indices *)
Definition elems (s e : list N) : list (list nat) := box_elems (vto_nat s) (vto_nat e).
Lemma elem_of_elems s e x : x ∈ elems s e <-> inbox s e (vof_nat x).
Proof.
  unfold elems. rewrite elem_of_box_elems, in_box_to_nat. unfold inbox. split.
  - intros [H1 H2]. pose proof (Forall2_length _ _ _ H1). pose proof (Forall2_length _ _ _ H2). split_and!; [lia|lia|].
    intros i a b c Ha Hb Hc. split; [exact (Forall2_lookup_lr _ _ _ _ _ _ H1 Ha Hc)|exact (Forall2_lookup_lr _ _ _ _ _ _ H2 Hc Hb)].
  - intros (H1 & H2 & H3). split; apply Forall2_same_length_lookup_2; [lia| |lia|].
    + intros i a c Ha Hc. pose proof (lookup_lt_Some _ _ _ Ha). destruct (lookup_lt_is_Some_2 e i) as [b Hb]; [lia|]. specialize (H3 i a b c Ha Hb Hc). lia.
    + intros i c b Hc Hb. pose proof (lookup_lt_Some _ _ _ Hb). destruct (lookup_lt_is_Some_2 s i) as [a Ha]; [lia|]. specialize (H3 i a b c Ha Hb Hc). lia.
Qed.
Lemma mjoin_length_const {A} (l : list (list A)) n : Forall (fun x => length x = n) l -> length (mjoin l) = (length l * n)%nat.
Proof. induction 1 as [|x l Hx _ IH]; [done|]. cbn [mjoin list_join]. rewrite app_length. rewrite Hx. unfold mjoin in IH |- *. rewrite IH. cbn. lia. Qed.
Lemma elems_length s e : length e = length s -> length (elems s e) = N.to_nat (count s e).
Proof.
  unfold elems, count, vto_nat. revert e. induction s as [|x s IH]; intros [|y e] Hl; try done.
  rewrite !list.fmap_cons. cbn [box_elems zip_with foldr]. rewrite (mjoin_length_const _ (N.to_nat (foldr N.mul 1%N (zip_with N.sub e s)))).
  - rewrite fmap_length, seq_length. lia.
  - apply Forall_fmap, list.Forall_forall. intros i _. unfold compose. rewrite fmap_length. apply IH. simpl in Hl. lia.
Qed.

Lemma elements_between_mod s e : nonempty s e -> elements_between s e = (count s e mod 2 ^ 64)%N.
Proof.
  intros Hne. unfold elements_between, count. assert (vwsub e s = zip_with N.sub e s) as ->.
  { destruct Hne as [Hl Hb]. unfold vwsub. revert e Hl Hb. induction s as [|x s IH]; intros [|y e] Hl Hb; try done. cbn [zip_with]. simpl in Hl. f_equal.
    - pose proof (Hb 0%nat x y eq_refl eq_refl). by apply wsub_small; lia.
    - apply IH; [lia|]. intros i a b Ha Hb'. exact (Hb (S i) a b Ha Hb'). }
  generalize (zip_with N.sub e s). intros l. clear.
  enough (forall a, (a < 2 ^ 64)%N -> foldl wmul a l = (a * foldr N.mul 1%N l) mod 2 ^ 64)%N as H.
  { rewrite H by done. by rewrite N.mul_1_l. }
  induction l as [|x l IH]; intros a Ha; cbn [foldl foldr].
  - rewrite N.mul_1_r, N.mod_small; done.
  - rewrite IH. 2:{ unfold wmul, W. by apply N.mod_lt. }
    unfold wmul, W. rewrite N.mul_mod_idemp_l by done. by rewrite N.mul_assoc.
Qed.
Lemma sum_mod {A} (f : A -> N) l : foldl (fun x m => wadd x (f m)) 0%N l = (foldr (fun m x => f m + x)%N 0%N l mod 2 ^ 64)%N.
Proof.
  enough (forall a, (a < 2 ^ 64)%N -> foldl (fun x m => wadd x (f m)) a l = (a + foldr (fun m x => f m + x)%N 0%N l) mod 2 ^ 64)%N as H.
  { rewrite H by done. done. }
  induction l as [|x l IH]; intros a Ha; cbn [foldl foldr].
  - rewrite N.add_0_r, N.mod_small; done.
  - rewrite IH. 2:{ unfold wadd, W. by apply N.mod_lt. }
    unfold wadd, W. rewrite N.add_mod_idemp_l by done. f_equal. lia.
Qed.

Definition all_elems (C : list chunk) : list (list nat) := C ≫= (fun c => elems (c_start c) (c_end c)).
Lemma all_elems_nodup C : all_apart C -> NoDup (all_elems C).
Proof.
  intros Hap. unfold all_elems. induction C as [|c C IH]; [constructor|]. rewrite bind_cons. apply NoDup_app. split_and!.
  - apply box_elems_NoDup.
  - intros x Hx (c' & Hx' & Hc')%elem_of_list_bind. apply elem_of_list_lookup in Hc' as [j Hj]. apply elem_of_elems in Hx, Hx'.
    exact (Hap 0%nat (S j) c c' eq_refl Hj ltac:(done) _ Hx Hx').
  - apply IH. intros i j c1 c2 H1 H2 Hij. apply (Hap (S i) (S j)); auto.
Qed.
Lemma elem_of_all_elems C x : x ∈ all_elems C <-> exists c, c ∈ C /\ covers c (vof_nat x).
Proof.
  unfold all_elems. rewrite elem_of_list_bind. split; intros (c & H1 & H2); exists c.
  - apply elem_of_elems in H1. done.
  - split; [|done]. by apply elem_of_elems.
Qed.
Lemma all_elems_length C : Forall (fun c => length (c_end c) = length (c_start c)) C ->
  length (all_elems C) = N.to_nat (foldr (fun c x => count (c_start c) (c_end c) + x)%N 0%N C).
Proof. induction 1 as [|c C Hc _ IH]; [done|]. unfold all_elems. rewrite bind_cons, app_length, elems_length by done. cbn [foldr]. unfold all_elems in IH. lia. Qed.

(** Disjoint boxes inside a box fill it iff the numbers of indices agree. *)
Lemma counting C s e : all_apart C -> Forall (fun c => length (c_end c) = length (c_start c)) C -> length e = length s ->
  (forall c ind, c ∈ C -> covers c ind -> inbox s e ind) ->
  (foldr (fun c x => count (c_start c) (c_end c) + x)%N 0%N C <= count s e)%N /\
  (foldr (fun c x => count (c_start c) (c_end c) + x)%N 0%N C = count s e <-> gap_free C s e).
Proof.
  intros Hap HC Hl Hin. pose proof (all_elems_length C HC) as H1. pose proof (elems_length s e Hl) as H2. pose proof (all_elems_nodup C Hap) as Hnd.
  assert (all_elems C ⊆+ elems s e) as Hsub.
  { apply NoDup_submseteq; [done|]. intros x (c & Hc & Hx)%elem_of_all_elems. apply elem_of_elems. eauto. }
  pose proof (submseteq_length _ _ Hsub) as Hle. split; [lia|]. split.
  - intros E. assert (all_elems C ≡ₚ elems s e) as Hp. { apply submseteq_Permutation_length_le; [lia|done]. }
    intros ind Hind. assert (vof_nat (vto_nat ind) = ind) as Ei.
    { unfold vof_nat, vto_nat. rewrite <- list_fmap_compose. rewrite <- (list_fmap_id ind) at 2. apply list_fmap_ext. intros i x _. unfold compose. by rewrite N2Nat.id. }
    destruct (proj1 (elem_of_all_elems C (vto_nat ind))) as (c & Hc & Hcov).
    { rewrite Hp. apply elem_of_elems. by rewrite Ei. }
    exists c. by rewrite Ei in Hcov.
  - intros Hg. assert (elems s e ⊆+ all_elems C) as Hsub2.
    { apply NoDup_submseteq; [apply box_elems_NoDup|]. intros x Hx%elem_of_elems. apply elem_of_all_elems. destruct (Hg _ Hx) as (c & Hc & Hcov). eauto. }
    apply submseteq_length in Hsub2. lia.
Qed.

Section geo.
Context (vd dims : nat) (junk : N) (L : lib) (HL : lib_ok L).
Local Notation lrep := (lrep vd dims).
Local Notation lrep_ := (lrep_ vd dims).

Lemma lrep_hull l S M sz H : lrep_ l S M sz H -> ls_chunks S <> [] ->
  exists s e, get_bounding_box dims (l_tree l) = Some (mk_bbox s e) /\ is_hull dims (ls_chunks S) s e /\ nonempty s e.
Proof using.
  intros Hl Hne. set (C := ls_chunks S) in *. pose proof (lrep_len _ _ _ _ _ _ _ Hl) as Hlen. fold C in Hlen.
  destruct (sim_bbox _ _ _ _ _ (lr_tree _ _ _ _ _ _ _ Hl)) as ([s e] & Hb & Hbok & Hin & Hleast).
  { destruct M; [|done]. simpl in Hlen. destruct C; done. }
  cbn [fst snd] in *. destruct Hbok as [[Hel Hpr] Hsl]. cbn [fst snd] in *.
  assert (forall c, c ∈ C -> within (c_start c, c_end c) (s, e) /\ length (c_start c) = dims /\ length (c_end c) = dims /\ nonempty (c_start c) (c_end c)) as Hcs.
  { intros c Hc. apply elem_of_list_lookup in Hc as [i Hc]. destruct (lrep_get _ _ _ _ _ _ _ _ _ Hl Hc) as (m & Hm & Hr & _).
    split; [|split; [apply Hr|split; [by eapply mr_end_len|apply Hr]]].
    rewrite <- (mr_start _ _ _ Hr), <- (mr_end _ _ _ Hr). apply (Hin (item_of m)). apply elem_of_list_fmap. exists m. split; [done|]. by eapply elem_of_list_lookup_2. }
  assert (exists c0, c0 ∈ C) as [c0 Hc0]. { destruct C as [|c0 C']; [done|]. exists c0. apply elem_of_list_here. }
  exists s, e. split; [done|].
  assert (nonempty s e) as Hnonempty.
  { split; [done|]. intros i x y Hx Hy. specialize (Hpr i x y Hx Hy). destruct (Hcs c0 Hc0) as (Hw & Hl1 & Hl2 & [_ Hb0]). destruct Hw as [W1 W2]. cbn [fst snd] in *.
    pose proof (lookup_lt_Some _ _ _ Hx). destruct (lookup_lt_is_Some_2 (c_start c0) i) as [a Ha]; [lia|]. destruct (lookup_lt_is_Some_2 (c_end c0) i) as [b Hb']; [lia|].
    specialize (W1 i a x Ha Hx). specialize (W2 i b y Hb' Hy). specialize (Hb0 i a b Ha Hb'). lia. }
  split; [|done]. split_and!; [done|congruence| | |].
  - intros c ind Hc (I1 & I2 & I3). destruct (Hcs c Hc) as ([W1 W2] & Hl1 & Hl2 & _). cbn [fst snd] in *. split_and!; [congruence|done|].
    intros i x y z Hx Hy Hz. pose proof (lookup_lt_Some _ _ _ Hx). destruct (lookup_lt_is_Some_2 (c_start c) i) as [a Ha]; [lia|]. destruct (lookup_lt_is_Some_2 (c_end c) i) as [b Hb']; [lia|].
    specialize (W1 i a x Ha Hx). specialize (W2 i b y Hb' Hy). specialize (I3 i a b z Ha Hb' Hz). lia.
  - intros i x Hx. pose proof (lookup_lt_Some _ _ _ Hx) as Hi. destruct (decide (Exists (fun c => c_start c !! i = Some x) C)) as [(c & Hc & E)%Exists_exists|Hno]; [eauto|].
    exfalso. assert (forall c a, c ∈ C -> c_start c !! i = Some a -> (x + 1 <= a)%N) as Hup.
    { intros c a Hc Ha. destruct (Hcs c Hc) as ([W1 _] & _). cbn [fst snd] in W1. specialize (W1 i a x Ha Hx).
      destruct (decide (a = x)) as [->|]; [|lia]. exfalso. apply Hno, Exists_exists. eauto. }
    destruct (Hleast (<[i := (x + 1)%N]> s, e)) as [W1 _]; cbn [fst snd] in *.
    + split; cbn [fst snd]; [|by rewrite insert_length]. split; [by rewrite insert_length|]. intros j a b Ha Hb'.
      apply list_lookup_insert_Some in Ha as [(<- & <- & _)|[Hne' Ha]]; [|by apply (Hpr j)].
      destruct Hnonempty as [_ Hn]. specialize (Hn i x b Hx Hb'). lia.
    + intros h Hh. destruct (lr_hist _ _ _ _ _ _ _ Hl h Hh) as (c & Hc & [V1 V2]). cbn [fst snd] in *. destruct (Hcs c Hc) as ([U1 U2] & Hl1 & Hl2 & _). cbn [fst snd] in *.
      assert (forall j p, h.1 !! j = Some p -> exists a, c_start c !! j = Some a /\ (a <= p)%N) as G1.
      { intros j p Hp. destruct (proj1 (list.Forall_forall _ _) (proj1 (proj2 (lr_tree _ _ _ _ _ _ _ Hl))) h Hh) as [_ Hhl]. pose proof (lookup_lt_Some _ _ _ Hp).
        destruct (lookup_lt_is_Some_2 (c_start c) j) as [a Ha]; [lia|]. exists a. split; [done|]. eauto. }
      assert (forall j p, h.2 !! j = Some p -> exists a, c_end c !! j = Some a /\ (p <= a)%N) as G2.
      { intros j p Hp. destruct (proj1 (list.Forall_forall _ _) (proj1 (proj2 (lr_tree _ _ _ _ _ _ _ Hl))) h Hh) as [[Hh2 _] Hhl]. pose proof (lookup_lt_Some _ _ _ Hp).
        destruct (lookup_lt_is_Some_2 (c_end c) j) as [a Ha]; [lia|]. exists a. split; [done|]. eauto. }
      split; cbn [fst snd].
      * intros j p q Hp Hq. destruct (G1 j p Hp) as (a & Ha & Hap). apply list_lookup_insert_Some in Hq as [(<- & <- & _)|[Hne' Hq]].
        -- specialize (Hup c a Hc Ha). lia.
        -- specialize (U1 j a q Ha Hq). lia.
      * intros j p q Hp Hq. destruct (G2 j p Hp) as (a & Ha & Hap). specialize (U2 j a q Ha Hq). lia.
    + specialize (W1 i x (x + 1)%N Hx). rewrite list_lookup_insert in W1 by done. specialize (W1 eq_refl). lia.
  - intros i x Hx. pose proof (lookup_lt_Some _ _ _ Hx) as Hi. destruct (decide (Exists (fun c => c_end c !! i = Some x) C)) as [(c & Hc & E)%Exists_exists|Hno]; [eauto|].
    exfalso. assert (forall c a, c ∈ C -> c_end c !! i = Some a -> (a + 1 <= x)%N) as Hup.
    { intros c a Hc Ha. destruct (Hcs c Hc) as ([_ W2] & _). cbn [fst snd] in W2. specialize (W2 i a x Ha Hx).
      destruct (decide (a = x)) as [->|]; [|lia]. exfalso. apply Hno, Exists_exists. eauto. }
    destruct (Hleast (s, <[i := (x - 1)%N]> e)) as [_ W2]; cbn [fst snd] in *.
    + split; cbn [fst snd]; [|done]. split; [by rewrite insert_length|]. intros j a b Ha Hb'.
      apply list_lookup_insert_Some in Hb' as [(<- & <- & _)|[Hne' Hb']]; [|by apply (Hpr j)].
      destruct Hnonempty as [_ Hn]. specialize (Hn i a x Ha Hx). lia.
    + intros h Hh. destruct (lr_hist _ _ _ _ _ _ _ Hl h Hh) as (c & Hc & [V1 V2]). cbn [fst snd] in *. destruct (Hcs c Hc) as ([U1 U2] & Hl1 & Hl2 & _). cbn [fst snd] in *.
      assert (forall j p, h.1 !! j = Some p -> exists a, c_start c !! j = Some a /\ (a <= p)%N) as G1.
      { intros j p Hp. destruct (proj1 (list.Forall_forall _ _) (proj1 (proj2 (lr_tree _ _ _ _ _ _ _ Hl))) h Hh) as [_ Hhl]. pose proof (lookup_lt_Some _ _ _ Hp).
        destruct (lookup_lt_is_Some_2 (c_start c) j) as [a Ha]; [lia|]. exists a. split; [done|]. eauto. }
      assert (forall j p, h.2 !! j = Some p -> exists a, c_end c !! j = Some a /\ (p <= a)%N) as G2.
      { intros j p Hp. destruct (proj1 (list.Forall_forall _ _) (proj1 (proj2 (lr_tree _ _ _ _ _ _ _ Hl))) h Hh) as [[Hh2 _] Hhl]. pose proof (lookup_lt_Some _ _ _ Hp).
        destruct (lookup_lt_is_Some_2 (c_end c) j) as [a Ha]; [lia|]. exists a. split; [done|]. eauto. }
      split; cbn [fst snd].
      * intros j p q Hp Hq. destruct (G1 j p Hp) as (a & Ha & Hap). specialize (U1 j a q Ha Hq). lia.
      * intros j p q Hp Hq. destruct (G2 j p Hp) as (a & Ha & Hap). apply list_lookup_insert_Some in Hq as [(<- & <- & _)|[Hne' Hq]].
        -- specialize (Hup c a Hc Ha). lia.
        -- specialize (U2 j a q Ha Hq). lia.
    + specialize (W2 i x (x - 1)%N Hx). rewrite list_lookup_insert in W2 by done. specialize (W2 eq_refl).
      pose proof (lookup_lt_Some _ _ _ Hx). destruct (lookup_lt_is_Some_2 s i) as [a Ha]; [lia|]. destruct Hnonempty as [_ Hn]. specialize (Hn i a x Ha Hx). lia.
Qed.

Definition geometry_ok (C : list chunk) (g : geom) : Prop :=
  (C = [] -> g = Geom (replicate dims 0%N) (replicate dims 0%N) (replicate dims 0%N)) /\
  (C <> [] -> is_hull dims C (g_start g) (g_end g) /\ nonempty (g_start g) (g_end g) /\
    ((count (g_start g) (g_end g) < 2 ^ 64)%N ->
      (gap_free C (g_start g) (g_end g) -> g_shape g = zip_with N.sub (g_end g) (g_start g)) /\
      (~ gap_free C (g_start g) (g_end g) -> g_shape g = replicate dims 0%N))).

Lemma calc_geo_ok l S M sz H : lrep_ l S M sz H -> exists g, calc_geo dims (l_tree l) = Some g /\ geometry_ok (ls_chunks S) g.
Proof using.
  intros Hl. pose proof (sim_empty dims _ _ _ (lr_tree _ _ _ _ _ _ _ Hl)) as Hem. pose proof (lrep_len _ _ _ _ _ _ _ Hl) as Hlen.
  set (C := ls_chunks S) in *. destruct (decide (C = [])) as [E|Hne].
  { rewrite E in *. destruct M; [|done]. cbn [fmap list_fmap] in Hem. unfold calc_geo. rewrite Hem. eexists. split; [reflexivity|]. by split. }
  assert (rt_empty (l_tree l) = false) as Hem'. { rewrite Hem. destruct M; [by destruct C|done]. }
  destruct (lrep_hull _ _ _ _ _ Hl Hne) as (s & e & Hbb & Hh & Hnes). fold C in Hh.
  unfold calc_geo. rewrite Hem', Hbb. cbn [mbind option_bind]. rewrite (lrep_all _ _ _ _ _ _ _ Hl). cbn [mbind option_bind].
  eexists. split; [reflexivity|]. split; [done|]. intros _. cbn [g_start g_end g_shape bb_start bb_end mk_bbox]. split; [done|]. split; [done|]. intros Hsmall.
  pose proof Hh as (Hsl & Hel & Hin & _).
  assert (Forall (fun c => length (c_end c) = length (c_start c) /\ nonempty (c_start c) (c_end c)) C) as HCl.
  { apply Forall_lookup_2. intros i c Hc. destruct (lrep_get _ _ _ _ _ _ _ _ _ Hl Hc) as (m & _ & Hr & _). rewrite (mr_end_len _ _ _ Hr), (mr_dims _ _ _ Hr). split; [done|]. apply Hr. }
  destruct (counting C s e (lr_apart _ _ _ _ _ _ _ Hl)) as [Hle Hiff].
  { eapply list.Forall_impl; [exact HCl|]. by intros c [? _]. }
  { congruence. }
  { exact Hin. }
  rewrite sum_mod, (elements_between_mod s e Hnes), (N.mod_small (count s e)) by done.
  set (tot := foldr (fun c x => count (c_start c) (c_end c) + x)%N 0%N C) in *.
  assert (foldr (fun m x => elements_between (cm_start m) (cm_end m) + x)%N 0%N M = tot) as ->.
  { unfold tot in *. pose proof (lr_metas _ _ _ _ _ _ _ Hl) as HF. fold C in HF. clear -HF HCl Hle Hsmall.
    assert (foldr (fun c x => count (c_start c) (c_end c) + x)%N 0%N C < 2 ^ 64)%N as Hlt by lia. clear Hle Hsmall.
    induction HF as [|m c M C Hr HF IH]; [done|]. cbn [foldr] in *. apply list.Forall_cons in HCl as [[_ Hn] HCl]. rewrite IH; [|done|lia].
    rewrite (mr_start _ _ _ Hr), (mr_end _ _ _ Hr), (elements_between_mod _ _ Hn), N.mod_small; [done|]. lia. }
  rewrite N.mod_small by lia.
  assert (vwsub e s = zip_with N.sub e s) as Hvs.
  { destruct Hnes as [Hl' Hb]. clear -Hl' Hb. unfold vwsub. revert e Hl' Hb. induction s as [|x s IH]; intros [|y e] Hl Hb; try done. cbn [zip_with]. simpl in Hl. f_equal.
    - pose proof (Hb 0%nat x y eq_refl eq_refl). by apply wsub_small; lia.
    - apply IH; [lia|]. intros i a b Ha Hb'. exact (Hb (Datatypes.S i) a b Ha Hb'). }
  destruct (N.eqb_spec tot (count s e)) as [E|E]; split; intros G.
  - done.
  - exfalso. apply G. by apply Hiff.
  - exfalso. apply E. by apply Hiff.
  - done.
Qed.

Lemma geometry_lib_ok l S : lrep l S -> exists g l', lib_geometry dims l = Done (g, l') /\ lrep l' S /\ geometry_ok (ls_chunks S) g.
Proof using.
  intros (M & sz & H & Hl). destruct (calc_geo_ok _ _ _ _ _ Hl) as (g & Hg & Hok). unfold lib_geometry. destruct (l_geo l) as [g'|] eqn:Eg.
  - assert (g' = g) as ->. { pose proof (lr_geo _ _ _ _ _ _ _ Hl g' Eg). congruence. }
    exists g, l. split; [done|]. split; [by exists M, sz, H|done].
  - rewrite Hg. cbn [of_opt mbind res_bind]. eexists g, _. split; [reflexivity|]. split; [|done]. exists M, sz, H. destruct Hl. split; try done.
    cbn [l_geo l_tree]. intros g0 [= <-]. done.
Qed.
End geo.
