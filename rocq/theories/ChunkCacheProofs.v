(** Proofs about the chunk store: what a chunk file holds. *)
From stdpp Require Import base list list_numbers numbers option gmap countable sets.
From Coq Require Import NArith Lia.
From Verif Require Import IndexSpec LoopsModel LoopsProofs NDArrayModel NDArrayProofs NDArrayOps NDArrayOps2 NDArrayProps
  CodecModel NullSupModel NullSupProps StreamerModel StreamerProofs StreamerProofs2 StreamerProps CacheModel CacheProofs
  ChunkMetaModel ChunkCacheModel ChunkCacheSpec.

(** The array has exactly these contents. *)
Definition holds (vd : nat) (a : ndarr N) (c : content) : Prop :=
  a_shape a = k_shape c /\ forall x, in_shape (k_shape c) x -> aread vd a x = Some (k_at c x).
Lemma holds_content_of vd a : api_array vd a -> holds vd a (content_of vd a).
Proof.
  intros Ha. split; [done|]. intros x Hx. destruct (aread_Some vd a x) as (v & Hv & _); [by apply wf_owned_wf, api_array_wf|done|].
  simpl. by rewrite Hv.
Qed.
(** Same contents. *)
Definition ceq (c c' : content) : Prop := k_shape c = k_shape c' /\ forall x, in_shape (k_shape c) x -> k_at c x = k_at c' x.
Lemma holds_ceq vd a c : holds vd a c <-> (a_shape a = k_shape c /\ forall x, in_shape (k_shape c) x -> aread vd a x = Some (k_at c x)).
Proof. done. Qed.

(** The scalars of an array are those found by reading it. *)
Lemma data_from_reads {A} (P : A -> Prop) vd (a : ndarr A) : api_array vd a ->
  (forall x v, in_shape (a_shape a) x -> aread vd a x = Some v -> Forall P v) -> Forall P (a_data a).
Proof.
  intros Ha H. destruct (C01_addressing_bijection vd a Ha) as (_ & _ & Hall).
  apply Forall_lookup. intros p y Hy. destruct (Hall p) as (x & Hx & Hr); [by eapply lookup_lt_Some|].
  destruct (aread_Some vd a x) as (v & Hv & Hlv); [by apply wf_owned_wf, api_array_wf|done|].
  specialize (H x v Hx Hv). unfold run_of in Hr. rewrite aread_eq in Hv by done. apply block_lookup in Hv as [_ Hv].
  specialize (Hv (p - flat_ind (a_strides a) (a_off a) x)%nat).
  replace (flat_ind (a_strides a) (a_off a) x + (p - flat_ind (a_strides a) (a_off a) x))%nat with p in Hv by lia.
  rewrite Forall_lookup in H. eapply H. rewrite Hv; [exact Hy|]. lia.
Qed.
Lemma holds_words vd a c : api_array vd a -> holds vd a c ->
  (forall x, in_shape (k_shape c) x -> Forall (fun b => b < 2 ^ 32)%N (k_at c x)) -> float_array vd a.
Proof.
  intros Ha [Hs Hr] Hw. split; [done|]. apply (data_from_reads _ vd); [done|]. intros x v Hx Hv. rewrite Hs in Hx.
  rewrite Hr in Hv by done. injection Hv as <-. by apply Hw.
Qed.
Lemma float_words vd a c : float_array vd a -> holds vd a c ->
  forall x, in_shape (k_shape c) x -> Forall (fun b => b < 2 ^ 32)%N (k_at c x).
Proof. intros [Ha Hw] [Hs Hr] x Hx. by destruct (aread_words vd a x _ Hw (Hr x Hx)). Qed.

(** Concatenation. *)
Lemma concat0_shape c1 c2 n1 n2 sh : k_shape c1 = n1 :: sh -> k_shape c2 = n2 :: sh -> k_shape (concat0 c1 c2) = (n1 + n2)%nat :: sh.
Proof. intros H1 H2. unfold concat0. simpl. rewrite H1, H2. done. Qed.
Lemma concat0_at1 c1 c2 n1 sh i r : k_shape c1 = n1 :: sh -> (i < n1)%nat -> k_at (concat0 c1 c2) (i :: r) = k_at c1 (i :: r).
Proof. intros H1 Hi. unfold concat0. simpl. rewrite H1. simpl. by destruct (Nat.ltb_spec i n1); [|lia]. Qed.
Lemma concat0_at2 c1 c2 n1 sh i r : k_shape c1 = n1 :: sh -> k_at (concat0 c1 c2) ((n1 + i)%nat :: r) = k_at c2 (i :: r).
Proof.
  intros H1. unfold concat0. simpl. rewrite H1. simpl. destruct (Nat.ltb_spec (n1 + i) n1); [lia|].
  by replace (n1 + i - n1)%nat with i by lia.
Qed.
Lemma in_shape_cons n sh x : in_shape (n :: sh) x <-> exists i r, x = i :: r /\ (i < n)%nat /\ in_shape sh r.
Proof.
  rewrite in_shape_forall2. split.
  - intros H. inversion H as [|i ? r ? Hi Hr]; subst. exists i, r. split_and!; auto. by apply in_shape_forall2.
  - intros (i & r & -> & Hi & Hr). constructor; [done|]. by apply in_shape_forall2.
Qed.
Lemma append_holds vd junk a b c1 c2 n1 n2 sh :
  api_array vd a -> api_array vd b -> holds vd a c1 -> holds vd b c2 -> k_shape c1 = n1 :: sh -> k_shape c2 = n2 :: sh ->
  exists a', aappend vd junk a b 0 = AppOk a' /\ api_array vd a' /\ holds vd a' (concat0 c1 c2).
Proof.
  intros Ha Hb [Hs1 H1] [Hs2 H2] E1 E2.
  destruct (C04_append_is_concatenation vd junk a b n1 n2 sh) as (a' & Hap & Ha' & Hs' & Hr); [done|done|congruence|congruence|].
  exists a'. split; [done|]. split; [done|]. split; [by rewrite (concat0_shape _ _ _ _ _ E1 E2)|].
  intros x Hx. rewrite (concat0_shape _ _ _ _ _ E1 E2) in Hx. apply in_shape_cons in Hx as (i & r & -> & Hi & Hrr).
  destruct (Hr i r Hrr) as [R1 R2]. destruct (decide (i < n1)%nat) as [Hlt|Hge].
  - rewrite R1 by done. rewrite H1 by (rewrite E1; apply in_shape_cons; eauto). f_equal. symmetry. eapply concat0_at1; eauto.
  - rewrite R2 by lia. rewrite H2 by (rewrite E2; apply in_shape_cons; exists (i - n1)%nat, r; split_and!; auto; lia).
    f_equal. symmetry. replace (i :: r) with ((n1 + (i - n1))%nat :: r) by (f_equal; lia). eapply concat0_at2; eauto.
Qed.
Lemma concat0_words c1 c2 n1 n2 sh (P : list N -> Prop) : k_shape c1 = n1 :: sh -> k_shape c2 = n2 :: sh ->
  (forall x, in_shape (k_shape c1) x -> P (k_at c1 x)) -> (forall x, in_shape (k_shape c2) x -> P (k_at c2 x)) ->
  forall x, in_shape (k_shape (concat0 c1 c2)) x -> P (k_at (concat0 c1 c2) x).
Proof.
  intros E1 E2 H1 H2 x Hx. rewrite (concat0_shape _ _ _ _ _ E1 E2) in Hx. apply in_shape_cons in Hx as (i & r & -> & Hi & Hrr).
  destruct (decide (i < n1)%nat) as [Hlt|Hge].
  - rewrite (concat0_at1 _ _ _ _ _ _ E1 Hlt). apply H1. rewrite E1. apply in_shape_cons. eauto.
  - replace (i :: r) with ((n1 + (i - n1))%nat :: r) by (f_equal; lia). rewrite (concat0_at2 _ _ _ _ _ _ E1). apply H2.
    rewrite E2. apply in_shape_cons. exists (i - n1)%nat, r. split_and!; auto; lia.
Qed.

Lemma comes_back_refl m v : comes_back m v v. Proof. by left. Qed.

(** * Chunk files *)
Section files.
Context (vd dims : nat) (cs : list nat) (Hcs : acceptable_chunk dims cs) (Hdims : (0 < dims)%nat).

Definition ns (g : ndarr N) : smode * ndarr N := (NullSuppressed, g).
Definition ser_piece (p : smode * ndarr N) : option bytes := match ser_all_chunks vd p.1 p.2 cs with WOk b => Some b | _ => None end.
(** The file is the serialised array with contents [c]; it consists of the pieces [gs]. *)
Definition file_holds (f : bytes) (c : content) : Prop :=
  exists gs acc bss n0 sh, f = enc_meta (SMeta cs (total 0 (ns <$> gs) :: sh) acc) ++ mjoin bss /\
    gs <> [] /\ k_shape c = total 0 (ns <$> gs) :: sh /\ length (n0 :: sh) = dims /\
    Forall (piece_ok vd (n0 :: sh) cs 0) (ns <$> gs) /\ Forall (fun g => float_array vd g) gs /\
    (forall k g, (S k < length gs)%nat -> gs !! k = Some g -> (default 0 (head cs) | axis_extent 0 g)%nat) /\
    mapM ser_piece (ns <$> gs) = Some bss /\
    Forall (fun s => N.of_nat s < 2 ^ 64)%N (k_shape c) /\
    (aligned 0 cs (k_shape c) -> acc = Allowed) /\
    (forall k g x, gs !! k = Some g -> in_shape (a_shape g) x ->
       aread vd g x = Some (k_at c (bump 0 (total 0 (take k (ns <$> gs))) x))).

Lemma total_cons axis p ps : total axis (p :: ps) = (axis_extent axis p.2 + total axis ps)%nat.
Proof. done. Qed.
Lemma total_app axis p1 p2 : total axis (p1 ++ p2) = (total axis p1 + total axis p2)%nat.
Proof. unfold total. apply sum_list_with_app. Qed.
(** Every row lies in one of the pieces. *)
Lemma find_piece (gs : list (ndarr N)) i : (i < total 0 (ns <$> gs))%nat ->
  exists k g j, gs !! k = Some g /\ (j < axis_extent 0 g)%nat /\ i = (total 0 (take k (ns <$> gs)) + j)%nat.
Proof.
  revert i. induction gs as [|g gs IH]; intros i Hi; [unfold total in Hi; simpl in Hi; lia|].
  rewrite list.fmap_cons, total_cons in Hi. cbn [ns snd] in Hi.
  destruct (decide (i < axis_extent 0 g)%nat) as [Hlt|Hge].
  - exists 0%nat, g, i. split_and!; auto.
  - destruct (IH (i - axis_extent 0 g)%nat) as (k & g' & j & Hk & Hj & He); [lia|].
    exists (S k), g', j. split_and!; auto. rewrite list.fmap_cons. cbn [take]. rewrite total_cons. cbn [ns snd]. lia.
Qed.

Lemma piece_shape gs n0 sh k g : Forall (piece_ok vd (n0 :: sh) cs 0) (ns <$> gs) -> gs !! k = Some g ->
  exists n, a_shape g = n :: sh /\ (total 0 (take k (ns <$> gs)) + n <= total 0 (ns <$> gs))%nat.
Proof.
  intros Hps Hg. assert ((ns <$> gs) !! k = Some (ns g)) as Hg' by (by rewrite list_lookup_fmap, Hg).
  rewrite Forall_lookup in Hps. destruct (Hps k _ Hg') as (_ & _ & _ & Hs & _). cbn [ns snd] in Hs.
  exists (axis_extent 0 g). split; [exact Hs|]. rewrite <- (take_drop_middle _ _ _ Hg') at 2. rewrite total_app, total_cons. cbn [ns snd]. lia.
Qed.

Lemma file_serialize a c : float_array vd a -> length (a_shape a) = dims -> countable vd NullSuppressed cs (a_shape a) ->
  holds vd a c -> exists f, serialize vd NullSuppressed a cs = WOk f /\ file_holds f c.
Proof.
  intros Hfa Hl Hct [Hs Hr]. pose proof (acceptable_facts _ _ Hcs) as (Hlc & Hpos & Hcs64 & Hwf).
  destruct (a_shape a) as [|n sh] eqn:Hsh; [simpl in Hl; lia|].
  assert (axis_extent 0 a = n) as Hax by (unfold axis_extent; by rewrite Hsh).
  assert (piece_ok vd (n :: sh) cs 0 (ns a)) as Hp. { rewrite <- Hsh in Hct. apply countable_piece; auto. rewrite Hax, Hsh. done. }
  destruct (read_pieces vd (n :: sh) cs 0 (loop_fuel (n :: sh)) [ns a]) as (bss & Hbss & _); auto; try (simpl in *; lia).
  { intros p Hp'%elem_of_list_singleton. subst p. simpl. rewrite Hsh. done. }
  pose proof Hbss as Hbss0. cbn [mapM fst snd ns] in Hbss. destruct (ser_all_chunks vd NullSuppressed a cs) as [b| |] eqn:Hser; try done.
  cbn in Hbss. injection Hbss as <-.
  unfold serialize. rewrite Hwf, Hser. rewrite Hsh. eexists. split; [done|].
  assert (total 0 (ns <$> [a]) = n) as Ht by (unfold total; simpl; lia).
  exists [a], (if permits_equal (n :: sh) cs then Allowed else NotAllowed), [b], n, sh. rewrite Ht.
  refine (conj _ (conj _ (conj _ (conj _ (conj _ (conj _ (conj _ (conj _ (conj _ (conj _ _)))))))))); auto.
  - cbn [mjoin list_join]. by rewrite app_nil_r.
  - by constructor.
  - intros k g Hk. simpl in Hk. lia.
  - rewrite <- Hs. by destruct Hct.
  - intros Hal. rewrite (aligned_permits 0); auto; [lia|]. by rewrite Hs.
  - intros [|k] g x Hg Hx; [|done]. injection Hg as <-. unfold total. cbn [take sum_list_with]. rewrite bump_0. apply Hr. rewrite <- Hs. by rewrite <- Hsh.
Qed.

Lemma aligned_tail n n' sh : aligned 0 cs (n :: sh) -> (default 0 (head cs) | n')%nat -> aligned 0 cs (n' :: sh).
Proof.
  intros H Hd j s c Hs Hc. destruct j as [|j].
  - injection Hs as <-. split_and!; [lia| |lia]. intros _. destruct cs as [|c0 cs0]; [done|]. injection Hc as ->. done.
  - apply (H (S j) s c); done.
Qed.

Lemma total_div gs : (forall k g, gs !! k = Some g -> (default 0 (head cs) | axis_extent 0 g)%nat) -> (default 0 (head cs) | total 0 (ns <$> gs))%nat.
Proof.
  induction gs as [|g gs IH]; intros H; [exists 0%nat; done|]. rewrite list.fmap_cons, total_cons. apply Nat.divide_add_r.
  - by apply (H 0%nat).
  - apply IH. intros k. apply (H (S k)).
Qed.
Lemma last_piece_div gs n sh : gs <> [] -> aligned 0 cs (n :: sh) -> n = total 0 (ns <$> gs) ->
  (forall k g, (S k < length gs)%nat -> gs !! k = Some g -> (default 0 (head cs) | axis_extent 0 g)%nat) ->
  forall k g, gs !! k = Some g -> (default 0 (head cs) | axis_extent 0 g)%nat.
Proof.
  intros Hne Hal -> Hd. destruct (exists_last Hne) as (gs' & g & ->).
  assert (default 0 (head cs) | total 0 (ns <$> gs'))%nat as Hd'.
  { apply total_div. intros k h Hk. apply (Hd k h); [apply lookup_lt_Some in Hk; rewrite app_length; simpl; lia|].
    rewrite lookup_app_l; [done|]. by eapply lookup_lt_Some. }
  rewrite fmap_app, total_app in Hal. unfold total at 2 in Hal. simpl in Hal. rewrite Nat.add_0_r in Hal.
  intros k h Hk. destruct (decide (k < length gs')%nat).
  - apply (Hd k h); [rewrite app_length; simpl; lia|done].
  - rewrite lookup_app_r in Hk by lia. destruct (k - length gs')%nat as [|z]; [|done]. injection Hk as <-.
    pose proof (acceptable_facts _ _ Hcs) as (Hlc & Hpos & _). destruct cs as [|c0 cs0] eqn:Ecs; [simpl in Hlc; lia|].
    destruct (Hal 0%nat _ c0 eq_refl eq_refl) as (_ & H2 & _). specialize (H2 eq_refl). simpl in *.
    eapply Nat.divide_add_cancel_r; [exact Hd'|]. exact H2.
Qed.

Lemma file_append f a c ca n1 n2 sh :
  file_holds f c -> aligned 0 cs (k_shape c) -> float_array vd a -> holds vd a ca ->
  k_shape c = n1 :: sh -> k_shape ca = n2 :: sh -> countable vd NullSuppressed cs (k_shape (concat0 c ca)) ->
  exists f', append_slice vd dims NullSuppressed a 0 f = WOk f' /\ file_holds f' (concat0 c ca).
Proof.
  intros (gs & acc & bss & n0 & sh0 & -> & Hne & Hk & Hl0 & Hps & Hfl & Hdiv & Hbss & H64 & Hacc & Hrd) Hal Hfa [Hsa Hra] E1 E2 Hct.
  rewrite Hacc by done. clear Hacc acc. rewrite Hk in E1. injection E1 as En1 ->.
  rewrite (concat0_shape c ca n1 n2 sh) in Hct by congruence. assert (k_shape c = n1 :: sh) as E1 by congruence.
  pose proof (acceptable_facts _ _ Hcs) as (Hlc & Hpos & Hcs64 & Hwf).
  assert (Forall (fun s => N.of_nat s < 2 ^ 64)%N ((n1 + n2)%nat :: sh)) as H64' by (destruct Hct; done).
  unfold append_slice. rewrite dec_enc_meta; [|done|done|done|].
  2:{ cbn [m_shape]. rewrite <- Hk. done. }
  cbn [m_mode m_shape m_cs]. rewrite Hsa, E2.
  assert (shape_allows_concat (total 0 (ns <$> gs) :: sh) (n2 :: sh) 0 = true) as -> by (by apply shape_allows_concat_true).
  assert (axis_extent 0 a = n2) as Hax by (unfold axis_extent; by rewrite Hsa, E2).
  assert (countable vd NullSuppressed cs (n2 :: sh)) as Hct2.
  { destruct Hct as (Ha & Hb & Hc). split; [|split].
    - inversion Ha; subst. constructor; [lia|done].
    - assert (volume (n2 :: sh) <= volume ((n1 + n2)%nat :: sh))%nat by (simpl; nia). nia.
    - intros _. specialize (Hc eq_refl). destruct cs as [|c0 cs0]; [done|]. simpl in *.
      assert (Nat.min c0 n2 <= Nat.min c0 (n1 + n2))%nat by lia. nia. }
  assert (piece_ok vd (n0 :: sh) cs 0 (ns a)) as Hp.
  { apply countable_piece; auto; [by rewrite Hsa, E2|]. rewrite Hax, Hsa, E2. done. }
  destruct (read_pieces vd (n0 :: sh) cs 0 (loop_fuel (a_shape a)) [ns a]) as (bss1 & Hbss1 & _); auto; try (simpl in *; lia).
  { intros p Hp'%elem_of_list_singleton. subst p. done. }
  cbn [mapM fst snd ns] in Hbss1. destruct (ser_all_chunks vd NullSuppressed a cs) as [b| |] eqn:Hser; try done. clear bss1 Hbss1.
  eexists. split; [done|].
  assert (total 0 (ns <$> (gs ++ [a])) = (n1 + n2)%nat) as Ht.
  { rewrite fmap_app, total_app. rewrite En1. unfold total. simpl. lia. }
  exists (gs ++ [a]), (if permits_equal (n2 :: sh) cs then Allowed else NotAllowed), (bss ++ [b]), n0, sh.
  rewrite Ht. rewrite (concat0_shape c ca n1 n2 sh) by congruence.
  refine (conj _ (conj _ (conj _ (conj _ (conj _ (conj _ (conj _ (conj _ (conj _ (conj _ _)))))))))); auto.
  - cbn [alter list_alter lookup list_lookup default]. rewrite mjoin_app'. cbn [mjoin list_join]. rewrite app_nil_r. rewrite En1. done.
  - by destruct gs.
  - rewrite fmap_app. apply Forall_app. split; [done|]. by constructor.
  - apply Forall_app. split; [done|]. by constructor.
  - intros k g Hkk Hg. rewrite app_length in Hkk. simpl in Hkk. rewrite lookup_app_l in Hg by lia.
    eapply last_piece_div; [exact Hne| |reflexivity|exact Hdiv|exact Hg]. rewrite Hk in Hal. exact Hal.
  - rewrite fmap_app. apply mapM_Some. apply Forall2_app; [by apply mapM_Some|]. constructor; [|constructor]. unfold ser_piece. cbn [ns fst snd]. by rewrite Hser.
  - intros Halc. rewrite (aligned_permits 0); auto; [simpl in *; lia|]. eapply aligned_tail; [exact Halc|].
    eapply Nat.divide_add_cancel_r.
    2:{ destruct cs as [|c0 cs0] eqn:Ecs; [simpl in Hlc; lia|]. destruct (Halc 0%nat _ c0 eq_refl eq_refl) as (_ & H2 & _). simpl. by apply H2. }
    destruct cs as [|c0 cs0] eqn:Ecs; [simpl in Hlc; lia|]. rewrite E1 in Hal. destruct (Hal 0%nat _ c0 eq_refl eq_refl) as (_ & H2 & _). simpl. by apply H2.
  - intros k g x Hg Hx. destruct (decide (k < length gs)%nat) as [Hlt|Hge].
    + rewrite lookup_app_l in Hg by done. rewrite fmap_app, take_app_le by (rewrite fmap_length; lia).
      rewrite (Hrd k g x Hg Hx).
      destruct (piece_shape _ _ _ _ _ Hps Hg) as (ng & Hsg & Hng).
      rewrite Hsg in Hx. apply in_shape_cons in Hx as (i & r & -> & Hi & Hr). unfold bump. cbn [alter list_alter]. f_equal. symmetry.
      apply (concat0_at1 _ _ n1 sh); [done|]. lia.
    + rewrite lookup_app_r in Hg by lia. assert (k = length gs) as -> by (apply lookup_lt_Some in Hg; simpl in Hg; lia).
      rewrite Nat.sub_diag in Hg. injection Hg as <-. rewrite fmap_app, take_app_alt by (by rewrite fmap_length).
      rewrite En1. rewrite Hsa, E2 in Hx. pose proof Hx as Hx'. apply in_shape_cons in Hx' as (i & r & -> & Hi & Hr).
      rewrite Hra by (rewrite E2; done). cbn [bump alter list_alter]. unfold bump. cbn [alter list_alter]. f_equal. symmetry. eapply concat0_at2; eauto.
Qed.

(** Reading it back. *)
Lemma file_read f c target junk : file_holds f c -> api_array vd target ->
  exists a, deserialize vd dims junk target f = Some (a, []) /\ api_array vd a /\ returns vd a c.
Proof.
  intros (gs & acc & bss & n0 & sh & -> & Hne & Hk & Hl0 & Hps & Hfl & Hdiv & Hbss & H64 & Hacc & Hrd) Htg.
  pose proof (acceptable_facts _ _ Hcs) as (Hlc & Hpos & Hcs64 & Hwf).
  destruct cs as [|c0 cs0] eqn:Ecs; [simpl in Hlc; lia|]. rewrite <- Ecs in *.
  assert (ns <$> gs <> []) as Hne' by (by destruct gs).
  destruct (deserialize_pieces vd cs (n0 :: sh) 0 c0 (ns <$> gs) acc target junk [] bss) as (a & Ha & Hap & Hs & Hr); auto.
  - lia.
  - simpl; lia.
  - by rewrite Ecs.
  - intros; lia.
  - intros k p Hkl Hp. rewrite fmap_length in Hkl. rewrite list_lookup_fmap in Hp. destruct (gs !! k) as [g|] eqn:Hg; [|done].
    injection Hp as <-. pose proof (Hdiv k g Hkl Hg) as Hd. rewrite Ecs in Hd. exact Hd.
  - change (Forall (fun s => N.of_nat s < 2 ^ 64)%N (total 0 (ns <$> gs) :: sh)). by rewrite <- Hk.
  - change (<[0%nat := total 0 (ns <$> gs)]> (n0 :: sh)) with (total 0 (ns <$> gs) :: sh) in *. rewrite app_nil_r in Ha. rewrite Hl0 in Ha.
    exists a. split; [done|]. split; [done|]. split; [congruence|]. intros x Hx. rewrite Hk in Hx.
    apply in_shape_cons in Hx as (i & r & -> & Hi & Hrr). destruct (find_piece gs i Hi) as (k & g & j & Hg & Hj & ->).
    destruct (piece_shape _ _ _ _ _ Hps Hg) as (ng & Hsg & Hng).
    assert (in_shape (a_shape g) (j :: r)) as Hin.
    { rewrite Hsg. apply in_shape_cons. exists j, r. split_and!; auto. unfold axis_extent in Hj. rewrite Hsg in Hj. done. }
    specialize (Hr k (ns g) (j :: r)). rewrite list_lookup_fmap, Hg in Hr. specialize (Hr eq_refl Hin).
    specialize (Hrd k g (j :: r) Hg Hin). cbn [ns snd fst] in Hr. rewrite Hrd in Hr. unfold bump in Hr at 1. cbn [alter list_alter] in Hr.
    rewrite Hr. eexists. split; [reflexivity|]. unfold bump. cbn [alter list_alter].
    apply restored_comes_back. unfold bump in Hrd. cbn [alter list_alter] in Hrd.
    rewrite Forall_lookup in Hfl. destruct (Hfl k g Hg) as [_ Hw]. by destruct (aread_words vd g _ _ Hw Hrd).
Qed.
Lemma file_words f c : file_holds f c -> forall x, in_shape (k_shape c) x -> Forall (fun b => b < 2 ^ 32)%N (k_at c x).
Proof.
  intros (gs & acc & bss & n0 & sh & _ & Hne & Hk & Hl0 & Hps & Hfl & _ & _ & _ & _ & Hrd) x Hx.
  rewrite Hk in Hx. apply in_shape_cons in Hx as (i & r & -> & Hi & Hrr). destruct (find_piece gs i Hi) as (k & g & j & Hg & Hj & ->).
  destruct (piece_shape _ _ _ _ _ Hps Hg) as (ng & Hsg & Hng).
  assert (in_shape (a_shape g) (j :: r)) as Hin.
  { rewrite Hsg. apply in_shape_cons. exists j, r. split_and!; auto. unfold axis_extent in Hj. rewrite Hsg in Hj. done. }
  specialize (Hrd k g (j :: r) Hg Hin). unfold bump in Hrd. cbn [alter list_alter] in Hrd.
  rewrite Forall_lookup in Hfl. destruct (Hfl k g Hg) as [_ Hw]. by destruct (aread_words vd g _ _ Hw Hrd).
Qed.
Lemma file_ceq f c c' : file_holds f c -> ceq c c' -> file_holds f c'.
Proof.
  intros (gs & acc & bss & n0 & sh & -> & Hne & Hk & Hl0 & Hps & Hfl & Hdiv & Hbss & H64 & Hacc & Hrd) [Hs Ha].
  exists gs, acc, bss, n0, sh. rewrite <- Hs.
  refine (conj _ (conj _ (conj _ (conj _ (conj _ (conj _ (conj _ (conj _ (conj _ (conj _ _)))))))))); auto.
  intros k g x Hg Hx. rewrite (Hrd k g x Hg Hx). f_equal. apply Ha. rewrite Hk. destruct (piece_shape _ _ _ _ _ Hps Hg) as (ng & Hsg & Hng).
  rewrite Hsg in Hx. apply in_shape_cons in Hx as (i & r & -> & Hi & Hr). unfold bump. cbn [alter list_alter].
  apply in_shape_cons. eexists _, r. split_and!; auto. lia.
Qed.
End files.
