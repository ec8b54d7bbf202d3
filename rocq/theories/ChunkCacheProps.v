(** Property theorems C24, C25 and C28 (chunk store). *)
From stdpp Require Import base list list_numbers numbers option gmap countable sets.
From Coq Require Import NArith Lia.
From Verif Require Import IndexSpec NDArrayModel NDArrayProofs NDArrayOps NDArrayProps CodecModel StreamerModel StreamerProps CacheModel CacheProofs
  ChunkMetaModel ChunkCacheModel ChunkCacheSpec ChunkCacheProofs ChunkCacheProofs2 ChunkCacheProofs3.

Lemma acceptable_pos dims cs : acceptable_chunk dims cs -> (0 < dims)%nat.
Proof. intros (Hl & _ & He). destruct cs; [by apply Exists_nil in He|]. simpl in Hl. lia. Qed.
Lemma linv_empty vd dims cs sz files : linv vd dims cs sz [] files ∅.
Proof. split; [intros k e H; by apply elem_of_nil in H|]. intros k m c H. by rewrite lookup_empty in H. Qed.

(** * C24 *)
(** Every sequence of permitted calls completes, and every retrieval returns the latest contents: for every cache size, including 0,
    and whatever else is lying in the directory.
    Missing for the full property: appending along other axes than the first (refuted below), and appending to a chunk whose stored
    part does not consist of complete serialisation chunks (see C13). *)
Theorem C24_store_returns_latest_contents_partial vd dims junk cs size files h :
  acceptable_chunk dims cs -> valid_history vd dims cs ∅ h ->
  exists s0 rs s, copen vd dims junk size cs files = Some s0 /\ crun vd dims junk s0 h = Done (rs, s) /\ outs_ok vd ∅ h rs.
Proof.
  intros Hcs Hv. pose proof (acceptable_pos _ _ Hcs) as Hd.
  destruct (copen_ok vd dims junk cs (fun _ => cs) Hd size files ∅) as (s0 & H0 & Hs0 & _); [apply linv_empty|].
  destruct (crun_ok vd dims junk cs (fun _ => cs) (fun _ => Hcs) Hd h (fun _ => eq_refl) s0 ∅ Hs0 Hv) as (rs & s & Hr & _ & Ho & _). eauto 10.
Qed.
Print Assumptions C24_store_returns_latest_contents_partial.

(** Two caches of different sizes are indistinguishable up to the sign of zeros in null vectors. *)
Theorem C24_cache_size_does_not_matter_partial vd dims junk cs size size' h m :
  acceptable_chunk dims cs -> valid_history vd dims cs ∅ (h ++ [SRetrieve m]) ->
  forall s0 s0' rs rs' s s', copen vd dims junk size cs ∅ = Some s0 -> copen vd dims junk size' cs ∅ = Some s0' ->
    crun vd dims junk s0 (h ++ [SRetrieve m]) = Done (rs, s) -> crun vd dims junk s0' (h ++ [SRetrieve m]) = Done (rs', s') ->
    exists a a', last rs = Some (OChunk a) /\ last rs' = Some (OChunk a') /\ a_shape a = a_shape a' /\
      forall x, in_shape (a_shape a) x -> aread vd a x = aread vd a' x \/
        exists v v', aread vd a x = Some v /\ aread vd a' x = Some v' /\ null_vector v /\ null_vector v'.
Proof.
  intros Hcs Hv s0 s0' rs rs' s s' H0 H0' Hr Hr'. pose proof (acceptable_pos _ _ Hcs) as Hd.
  assert (forall size s0 rs s, copen vd dims junk size cs ∅ = Some s0 -> crun vd dims junk s0 (h ++ [SRetrieve m]) = Done (rs, s) ->
    exists a m' c, last rs = Some (OChunk a) /\ spec_run vd ∅ h !! cm_id m = Some (m', c) /\ returns vd a c) as Hone.
  { clear -Hcs Hv Hd. intros size s0 rs s H0 Hr.
    destruct (copen_ok vd dims junk cs (fun _ => cs) Hd size ∅ ∅) as (s1 & H1 & Hs1 & _); [apply linv_empty|]. assert (s1 = s0) as -> by congruence.
    destruct (crun_ok vd dims junk cs (fun _ => cs) (fun _ => Hcs) Hd _ (fun _ => eq_refl) s0 ∅ Hs1 Hv) as (rs1 & s2 & Hr1 & _ & Ho & _).
    rewrite Hr in Hr1. injection Hr1 as <- <-. clear -Ho. generalize (∅ : gmap N (chunk_meta * content)) as A, Ho. clear Ho. revert rs.
    induction h as [|o h' IH]; intros rs A Ho.
    - destruct rs as [|r [|r2 rs]]; [done| |by destruct Ho]. destruct Ho as [(a & m' & c & -> & HA & Hret) _]. exists a, m', c. done.
    - destruct rs as [|r rs]; [done|]. destruct Ho as [_ Ho]. destruct (IH rs _ Ho) as (a & m' & c & Hl & HA & Hret).
      exists a, m', c. split_and!; auto. by destruct rs. }
  destruct (Hone size s0 rs s H0 Hr) as (a & m1 & c & Hl & HA & Hs & Hret).
  destruct (Hone size' s0' rs' s' H0' Hr') as (a' & m1' & c' & Hl' & HA' & Hs' & Hret').
  assert (c' = c) as -> by congruence. exists a, a'. split_and!; auto; [congruence|]. intros x Hx. rewrite Hs in Hx.
  destruct (Hret x Hx) as (v & Hv1 & Hc1). destruct (Hret' x Hx) as (v' & Hv2 & Hc2). rewrite Hv1, Hv2.
  assert (forall n, null_vector (replicate n 0%N)) as Hz by (intros n; apply Forall_replicate; by left).
  destruct Hc1 as [->|(_ & Hn & ->)], Hc2 as [->|(_ & Hn' & ->)]; auto; right; eexists _, _; split_and!; auto.
Qed.
Print Assumptions C24_cache_size_does_not_matter_partial.

(** A one-dimensional example: two chunks competing for one slot, appends, removal of the other chunk, flush. *)
Definition nv_meta (id : N) : chunk_meta := mk_meta specified [id + 1]%N id [10 * id]%N [2]%N 0.
Definition nv_arr (v : list N) : ndarr N := NDArr [length v] [1%nat] 0 v true.
Definition nv_hist : list sop :=
  [SRegister (nv_meta 0) (nv_arr [1; 2]); SRegister (nv_meta 1) (nv_arr [7; 8]); SAppend (nv_meta 0) (nv_arr [3]);
   SRetrieve (nv_meta 1); SRetrieve (grown (nv_meta 0) (nv_arr [3])); SAppend (grown (nv_meta 0) (nv_arr [3])) (nv_arr [4; 5]);
   SRemove (nv_meta 1); SFlush reverse; SRetrieve (grown (grown (nv_meta 0) (nv_arr [3])) (nv_arr [4; 5]))]%N.
Definition nv_outs (size : nat) : option (list (list N)) :=
  s0 ← copen 1 1 0%N size [1]%nat ∅;
  match crun 1 1 0%N s0 nv_hist with
  | Done (rs, _) => Some ((fun r => match r with OChunk a => a_data a | _ => [] end) <$> rs)
  | _ => None
  end.
Example C24_nonvacuous :
  nv_outs 0 = Some [[]; []; []; [7; 8]; [1; 2; 3]; []; []; []; [1; 2; 3; 4; 5]]%N /\ nv_outs 1 = nv_outs 0 /\ nv_outs 2 = nv_outs 0.
Proof. vm_compute. split_and!; reflexivity. Qed.
Lemma nv_arr_float v : (forall b, b ∈ v -> b < 2 ^ 32)%N -> float_array 1 (nv_arr v).
Proof.
  intros Hv. split; [|by apply list.Forall_forall].
  (* any list of scalars is an array obtained by writing them one by one *)
  assert (forall k, (k <= length v)%nat -> api_array 1 (NDArr [length v] [1%nat] 0 (take k v ++ replicate (length v - k) 0%N) true)) as H.
  { induction k as [|k IH]; intros Hk.
    - rewrite Nat.sub_0_r. cbn [take app]. pose proof (api_new 1 0%N [length v]) as H. unfold anew in H.
      assert (number_elements [length v] = length v) as E by (unfold number_elements; cbn [fold_left]; lia).
      unfold compute_volume in H. rewrite E, Nat.mul_1_r in H. by apply H.
    - destruct (lookup_lt_is_Some_2 v k) as [b Hb]; [lia|].
      eapply (api_write 1 _ _ [k] [b]); [apply IH; lia|]. unfold awrite.
      assert (has_index [length v] [k] = true) as Hix. { unfold has_index. simpl. by destruct (Nat.ltb_spec k (length v)); [|lia]. }
      cbn [a_shape a_data a_strides a_off a_owns]. rewrite Hix. cbn [length Nat.eqb andb].
      assert (flat_ind [1%nat] 0 [k] = k) as -> by (unfold flat_ind; simpl; lia).
      unfold set_block. cbn [length]. rewrite app_length, take_length, replicate_length.
      destruct (Nat.leb_spec (k + 1) (k `min` length v + (length v - k))); [|lia]. cbn [mbind option_bind list_inserts]. do 2 f_equal.
      rewrite (take_S_r v k b Hb). replace (length v - k)%nat with (S (length v - S k)) by lia. cbn [replicate].
      rewrite <- app_assoc. assert (length (take k v) = k) as Hlk by (rewrite take_length; lia).
      rewrite <- Hlk at 1. rewrite <- (Nat.add_0_r (length (take k v))). rewrite insert_app_r. done. }
  specialize (H (length v) (le_n _)). rewrite take_ge, Nat.sub_diag, app_nil_r in H by lia. exact H.
Qed.

Lemma nv_countable n : (n <= 5)%nat -> countable 1 NullSuppressed [1%nat] [n].
Proof.
  intros Hn. assert (n = 0 \/ n = 1 \/ n = 2 \/ n = 3 \/ n = 4 \/ n = 5)%nat as H by lia.
  destruct H as [->|[->|[->|[->|[->| ->]]]]]; (split; [repeat constructor|split; [done|done]]).
Qed.
Lemma nv_ok id v : length v = 2%nat -> (forall b, b ∈ v -> b < 2 ^ 32)%N -> ok_chunk 1 1 [1%nat] (nv_meta id) (nv_arr v).
Proof. intros Hl Hv. split; [by apply nv_arr_float|]. split; [done|]. split; [simpl; rewrite Hl; by apply nv_countable; lia|]. by left. Qed.
Lemma nv_aligned n : aligned 0 [1%nat] [n].
Proof.
  intros j s c Hs Hc. destruct j; [|by destruct j]. injection Hs as <-. injection Hc as <-. split_and!; [lia| |lia]. intros _. apply Nat.divide_1_l.
Qed.
Ltac nv_small := intros b Hb; repeat (apply elem_of_cons in Hb as [->|Hb]; [done|]); by apply elem_of_nil in Hb.
Example C24_hypotheses_nonvacuous : acceptable_chunk 1 [1%nat] /\ valid_history 1 1 [1%nat] ∅ nv_hist.
Proof.
  split. { split_and!; [done| |]; repeat constructor; done. }
  unfold nv_hist. cbn [valid_history]. refine (conj _ (conj _ (conj _ (conj _ (conj _ (conj _ (conj _ (conj _ (conj _ I))))))))).
  - split; [done|]. split; [apply nv_ok; [done|nv_small]|]. intros k m c H. by rewrite lookup_empty in H.
  - cbn [spec_step valid_op]. split; [done|]. split; [apply nv_ok; [done|nv_small]|].
    intros k m c H _. apply lookup_insert_Some in H as [[_ E]|[_ H]]; [|by rewrite lookup_empty in H]. injection E as <- _. done.
  - cbn [spec_step valid_op]. eexists. split; [rewrite lookup_insert_ne by done; by rewrite lookup_insert|]. split; [done|].
    split; [apply nv_arr_float; nv_small|]. split_and!; try done; [apply nv_aligned|by apply (nv_countable 3); lia].
  - eexists. cbn [spec_step]. rewrite lookup_insert_ne by done. rewrite lookup_insert. cbn [cm_id nv_meta mk_meta].
    rewrite lookup_insert_ne by done. rewrite lookup_insert. split; [done|by left].
  - eexists. cbn [spec_step]. rewrite (lookup_insert_ne _ (cm_id (nv_meta 1)) (cm_id (nv_meta 0))) by done. rewrite lookup_insert. rewrite lookup_insert. split; [done|by left].
  - cbn [spec_step valid_op]. rewrite (lookup_insert_ne _ (cm_id (nv_meta 1)) (cm_id (nv_meta 0))) by done. rewrite lookup_insert.
    eexists. split; [by rewrite lookup_insert|]. split; [done|].
    split; [apply nv_arr_float; nv_small|]. split_and!; try done; [apply nv_aligned|by apply (nv_countable 5); lia].
  - done.
  - cbn [valid_op]. intros l. apply reverse_Permutation.
  - cbn [spec_step valid_op]. eexists. rewrite (lookup_insert_ne _ (cm_id (nv_meta 1)) (cm_id (nv_meta 0))) by done. rewrite lookup_insert.
    change (cm_id (grown (nv_meta 0) (nv_arr [3%N]))) with (cm_id (nv_meta 0)). rewrite lookup_insert.
    rewrite lookup_delete_ne by done. rewrite lookup_insert. split; [done|by left].
Qed.

(** Appending along two axes in turn.  The contents of the chunk should be [[1,2],[3,4]]; the switch of axes writes the pending slice
    and reads the whole chunk back into the slot, but leaves the slot marked as holding a slice to be appended, so that the whole chunk is
    appended to itself (DistributedNDVecArray.hxx:155-166). *)
Definition m22 : chunk_meta := mk_meta specified [1%N] 0%N [0; 0]%N [1; 1]%N 0.
Definition arr2 (r c : nat) (v : list N) : ndarr N := NDArr [r; c] [c; 1%nat] 0 v true.
Theorem C24_axis_change_refuted :
  (s0 ← of_opt (copen 1 2 0%N 1 [1; 1]%nat ∅);
   s1 ← register_new_chunk 1 2 0%N m22 (arr2 1 1 [1]%N) s0; s2 ← flush_cache 1 2 id s1;
   '(m2, s3) ← cache_append_slice 1 2 0%N 1 m22 (arr2 1 1 [2]%N) s2;
   '(m3, s4) ← cache_append_slice 1 2 0%N 0 m2 (arr2 1 2 [3; 4]%N) s3;
   '(d, _) ← retrieve_chunk 1 2 0%N m3 s4;
   Done (cm_shape m3, a_shape d, a_data d)) = Done ([2; 2]%N, [3; 2]%nat, [1; 2; 1; 2; 3; 4]%N).
Proof. vm_compute. reflexivity. Qed.
Print Assumptions C24_axis_change_refuted.
(** Appending along the second axis to a chunk that is still in the cache raises an error (in-memory appending is implemented for the
    first axis only), while the same call succeeds once the chunk has been written: the cache is visible. *)
Theorem C24_other_axis_refuted :
  (s0 ← of_opt (copen 1 2 0%N 1 [1; 1]%nat ∅);
   s1 ← register_new_chunk 1 2 0%N m22 (arr2 1 1 [1]%N) s0;
   cache_append_slice 1 2 0%N 1 m22 (arr2 1 1 [2]%N) s1) = Raised /\
  (s0 ← of_opt (copen 1 2 0%N 0 [1; 1]%nat ∅);
   s1 ← register_new_chunk 1 2 0%N m22 (arr2 1 1 [1]%N) s0;
   '(m2, s2) ← cache_append_slice 1 2 0%N 1 m22 (arr2 1 1 [2]%N) s1;
   '(d, _) ← retrieve_chunk 1 2 0%N m2 s2; Done (a_shape d, a_data d)) = Done ([1; 2]%nat, [1; 2]%N).
Proof. vm_compute. split; reflexivity. Qed.
Print Assumptions C24_other_axis_refuted.
(** With the short constructors (DistributedNDVecArray.hxx:25-28 and 812-815) the serialisation chunk size is infinite along every axis,
    which the streamer rejects: no specified chunk can ever be written, every flush of one raises an error. *)
Theorem C24_default_constructor_refuted vd dims junk cs size files m a :
  Forall (fun c => N.of_nat c = 2 ^ 64 - 1)%N cs -> cm_path m <> [] -> float_array vd a ->
  exists s0, copen vd dims junk size cs files = Some s0 /\
    (s1 ← register_new_chunk vd dims junk m a s0; flush_cache vd dims id s1) = Raised.
Proof.
  intros Hc Hp Ha. unfold copen.
  set (init := CEntry _ _ _). destruct (cnew_inv (K := N) (Nat.max 1 size) init) as (c & Hcn & Hci); [lia|].
  assert (c_depth c = Nat.max 1 size) as Hd.
  { unfold cnew in Hcn. destruct (_ =? 0)%nat; [done|]. injection Hcn as <-. done. }
  rewrite Hcn. cbn [mbind option_bind]. eexists. split; [reflexivity|].
  assert (forall ds s, s_cs s = cs -> cm_path m <> [] -> cinv (s_cache s) [(cm_id m, CEntry m ds Serialize)] -> flush_cache vd dims id s = Raised) as Hfl.
  { intros ds s Hs _ Hcv. unfold flush_cache, id.
    assert (contained (s_cache s) = [cm_id m]) as ->.
    { pose proof (cinv_contained 1 Nat.lt_0_1 _ _ Hcv) as H. cbn [fmap list_fmap fst] in H. by apply Permutation_singleton_r in H. }
    cbn [flush_keys]. destruct (cevict_spec _ [] _ _ [] Hcv) as (c' & -> & _). cbn [of_opt mbind res_bind]. unfold descope. cbn [ce_meta ce_data ce_st].
    rewrite bool_decide_false by done. rewrite Hs, (C12_ill_formed_chunk_rejected vd NullSuppressed ds cs Hc). done. }
  unfold register_new_chunk, insert_into_cache. cbn [s_cache s_size s_cs s_files].
  rewrite (ccontains_spec _ _ _ Hci), bool_decide_false by apply not_elem_of_nil. unfold make_room. cbn [s_cache].
  destruct (has_free_slot_spec _ _ Hci) as [-> _]. rewrite Hd. cbn [length]. destruct (Nat.ltb_spec 0 (Nat.max 1 size)); [|lia]. cbn [mbind res_bind].
  destruct (acopy_ok vd junk a Ha) as (d & -> & _). cbn [of_opt mbind res_bind s_cache].
  destruct (cinsert_spec c [] (cm_id m) (CEntry m d Serialize) Hci) as (c' & -> & Hci' & _); [apply not_elem_of_nil|simpl; lia|].
  cbn [of_opt mbind res_bind s_size s_cs s_files]. unfold flush_if_uncached. cbn [s_size]. destruct (size =? 0)%nat.
  - rewrite (Hfl d); done.
  - by apply (Hfl d).
Qed.
Print Assumptions C24_default_constructor_refuted.

(** * C25 *)
(** After a flush, a store opened on the same directory with any cache size answers any further permitted calls as the old one would have:
    every chunk returns its latest contents. *)
Theorem C25_flush_is_durable_partial vd dims junk cs size files h ord :
  acceptable_chunk dims cs -> valid_history vd dims cs ∅ h -> (forall l, ord l ≡ₚ l) ->
  exists s0 rs s, copen vd dims junk size cs files = Some s0 /\ crun vd dims junk s0 (h ++ [SFlush ord]) = Done (rs, s) /\
    forall size' h', valid_history vd dims cs (spec_run vd ∅ h) h' ->
      exists s1 rs' s2, copen vd dims junk size' cs (s_files s) = Some s1 /\ crun vd dims junk s1 h' = Done (rs', s2) /\
        outs_ok vd (spec_run vd ∅ h) h' rs'.
Proof.
  intros Hcs Hv Hord. pose proof (acceptable_pos _ _ Hcs) as Hd.
  destruct (copen_ok vd dims junk cs (fun _ => cs) Hd size files ∅) as (s0 & H0 & Hs0 & _); [apply linv_empty|].
  destruct (crun_ok vd dims junk cs (fun _ => cs) (fun _ => Hcs) Hd h (fun _ => eq_refl) s0 ∅ Hs0 Hv) as (rs & s & Hr & Hs & _ & _).
  destruct (flush_cache_ok vd dims cs (fun _ => cs) (fun _ => Hcs) Hd ord s _ Hord Hs) as (s' & Hf & Hs' & _).
  exists s0, (rs ++ [ONone]), s'. split; [done|]. split.
  - clear -Hr Hf. revert s0 rs Hr. induction h as [|o h IH]; intros s0 rs Hr; cbn [crun app] in *.
    + injection Hr as <- <-. cbn [cstep]. rewrite Hf. done.
    + destruct (cstep vd dims junk s0 o) as [[r s1]| |]; cbn [mbind res_bind] in *; try done.
      destruct (crun vd dims junk s1 h) as [[rs1 s2]| |] eqn:E; cbn [mbind res_bind] in *; try done. injection Hr as <- <-.
      rewrite (IH s1 rs1 E). done.
  - intros size' h' Hv'. destruct Hs' as (_ & _ & _ & Hinv).
    destruct (copen_ok vd dims junk cs (fun _ => cs) Hd size' (s_files s') _ Hinv) as (s1 & H1 & Hs1 & _).
    destruct (crun_ok vd dims junk cs (fun _ => cs) (fun _ => Hcs) Hd h' (fun _ => eq_refl) s1 _ Hs1 Hv') as (rs' & s2 & Hr' & _ & Ho & _). eauto 10.
Qed.
Print Assumptions C25_flush_is_durable_partial.

(** Flushing an already flushed store changes nothing: neither cache nor files. *)
Theorem C25_second_flush_does_nothing_partial vd dims junk cs size files h ord ord' :
  acceptable_chunk dims cs -> valid_history vd dims cs ∅ h -> (forall l, ord l ≡ₚ l) -> (forall l, ord' l ≡ₚ l) ->
  exists s0 rs s s1, copen vd dims junk size cs files = Some s0 /\ crun vd dims junk s0 h = Done (rs, s) /\
    flush_cache vd dims ord s = Done s1 /\ flush_cache vd dims ord' s1 = Done s1.
Proof.
  intros Hcs Hv Hord Hord'. pose proof (acceptable_pos _ _ Hcs) as Hd.
  destruct (copen_ok vd dims junk cs (fun _ => cs) Hd size files ∅) as (s0 & H0 & Hs0 & _); [apply linv_empty|].
  destruct (crun_ok vd dims junk cs (fun _ => cs) (fun _ => Hcs) Hd h (fun _ => eq_refl) s0 ∅ Hs0 Hv) as (rs & s & Hr & Hs & _ & _).
  destruct (flush_cache_ok vd dims cs (fun _ => cs) (fun _ => Hcs) Hd ord s _ Hord Hs) as (s' & Hf & Hs' & _).
  exists s0, rs, s, s'. split_and!; auto. unfold flush_cache.
  destruct Hs' as (_ & Hc & _). pose proof (cinv_contained 1 Nat.lt_0_1 _ _ Hc) as Hp. apply Permutation_nil_r in Hp. rewrite Hp.
  pose proof (Hord' []) as Hp'. apply Permutation_nil_r in Hp'. by rewrite Hp'.
Qed.
Print Assumptions C25_second_flush_does_nothing_partial.
Example C25_nonvacuous :
  (s0 ← of_opt (copen 1 1 0%N 3 [1]%nat ∅);
   '(_, s) ← crun 1 1 0%N s0 (take 6 nv_hist ++ [SFlush reverse]);
   s1 ← of_opt (copen 1 1 0%N 0 [1]%nat (s_files s));
   '(a, s2) ← retrieve_chunk 1 1 0%N (nv_meta 1) s1; '(b, _) ← retrieve_chunk 1 1 0%N (nv_meta 0) s2; Done (a_data a, a_data b))
  = Done ([7; 8], [1; 2; 3; 4; 5])%N.
Proof. vm_compute. reflexivity. Qed.

(** * C28 *)
(** A chunk of zeros registered as all-null (as the library does if the optimisation is on) or as an ordinary chunk with a file: whatever
    happens to other chunks in between, both return the same shape and vectors of zeros (signs aside).
    Missing for the full property: chunks with overlap, for which it is refuted below. *)
Definition leaves_alone (k : N) (o : sop) : Prop :=
  match o with
  | SRegister m _ | SAppend m _ | SRemove m => cm_id m <> k
  | SReplace _ m' _ => cm_id m' <> k
  | SRetrieve _ | SFlush _ => True
  end.
Theorem C28_null_chunk_transparent_partial vd dims junk cs size files h1 m a h2 :
  acceptable_chunk dims cs -> (forall x v, in_shape (a_shape a) x -> aread vd a x = Some v -> null_vector v) ->
  valid_history vd dims cs ∅ (h1 ++ SRegister m a :: h2 ++ [SRetrieve m]) -> Forall (leaves_alone (cm_id m)) h2 ->
  exists s0 rs s d, copen vd dims junk size cs files = Some s0 /\
    crun vd dims junk s0 (h1 ++ SRegister m a :: h2 ++ [SRetrieve m]) = Done (rs, s) /\ last rs = Some (OChunk d) /\
    a_shape d = a_shape a /\ forall x, in_shape (a_shape a) x -> exists v, aread vd d x = Some v /\ length v = vd /\ null_vector v.
Proof.
  intros Hcs Hnull Hv Hlv. pose proof (acceptable_pos _ _ Hcs) as Hd.
  destruct (copen_ok vd dims junk cs (fun _ => cs) Hd size files ∅) as (s0 & H0 & Hs0 & _); [apply linv_empty|].
  destruct (crun_ok vd dims junk cs (fun _ => cs) (fun _ => Hcs) Hd _ (fun _ => eq_refl) s0 ∅ Hs0 Hv) as (rs & s & Hr & _ & Ho & _).
  exists s0, rs, s.
  assert (exists A, ok_chunk vd dims cs m a /\ outs_ok vd A (h2 ++ [SRetrieve m]) (drop (S (length h1)) rs) /\ A !! cm_id m = Some (m, content_of vd a))
    as (A & Hok & Ho2 & HA).
  { clear -Hv Ho. revert Hv Ho. generalize (∅ : gmap N (chunk_meta * content)) as A. revert rs. induction h1 as [|o h1 IH]; intros rs A Hv Ho.
    - destruct Hv as [(_ & Hok & _) _]. destruct rs as [|r rs]; [done|]. destruct Ho as [_ Ho]. simpl. rewrite drop_0.
      eexists. split; [done|]. split; [exact Ho|]. cbn [spec_step]. by rewrite lookup_insert.
    - destruct rs as [|r rs]; [done|]. destruct Hv as [_ Hv]. destruct Ho as [_ Ho]. exact (IH rs _ Hv Ho). }
  assert (exists d, last (drop (S (length h1)) rs) = Some (OChunk d) /\ returns vd d (content_of vd a)) as (d & Hl & Hret).
  { clear -Ho2 HA Hlv. revert A HA Ho2. generalize (drop (S (length h1)) rs). clear rs. induction Hlv as [|o h Ho Hlv IH]; intros rs A HA Ho2.
    - destruct rs as [|r [|r' rs]]; [done| |by destruct Ho2]. destruct Ho2 as [(d & m' & c & -> & HA' & Hret) _].
      rewrite HA in HA'. injection HA' as <- <-. by exists d.
    - destruct rs as [|r rs]; [done|]. destruct Ho2 as [_ Ho2]. destruct (IH rs (spec_step vd A o)) as (d & Hl & Hret); [|exact Ho2|].
      + destruct o as [m1 a1|m1 m1' a1|m1 sl|m1|m1|ord]; cbn [spec_step leaves_alone] in *; auto.
        * by rewrite lookup_insert_ne. * by rewrite lookup_insert_ne.
        * destruct (A !! cm_id m1) as [[m2 c2]|]; [|done]. by rewrite lookup_insert_ne. * by rewrite lookup_delete_ne.
      + exists d. split; [|done]. by destruct rs. }
  exists d. split_and!; auto.
  - rewrite <- (take_drop (S (length h1)) rs). destruct (drop (S (length h1)) rs) as [|r rs'] eqn:E using rev_ind; [done|].
    rewrite last_snoc in Hl. by rewrite app_assoc, last_snoc.
  - destruct Hret as [Hs _]. done.
  - intros x Hx. destruct Hret as [_ Hret]. destruct (Hret x Hx) as (v & Hv' & Hcb). exists v. split; [done|].
    destruct (aread_Some vd a x) as (w & Hw & Hlw); [apply wf_owned_wf, api_array_wf, Hok|done|].
    unfold content_of in Hcb. cbn [k_at] in Hcb. rewrite Hw in Hcb. cbn [default] in Hcb. pose proof (Hnull x w Hx Hw) as Hn.
    destruct Hcb as [->|(_ & _ & ->)]; [done|]. rewrite replicate_length. split; [done|]. apply Forall_replicate. by left.
Qed.
Print Assumptions C28_null_chunk_transparent_partial.

(** With overlap: the array has shape 3 (one element and an overlap of one on either side).  Kept in the cache it is returned as such; once
    it has left the cache (or without a cache), an array of shape 1, without the overlap, is returned (DistributedNDVecArray.hxx:285-292). *)
Theorem C28_overlap_refuted :
  let run size m := (s0 ← of_opt (copen 1 1 0%N size [1]%nat ∅); s1 ← register_new_chunk 1 1 0%N m (nv_arr [0; 0; 0]%N) s0;
                     '(d, _) ← retrieve_chunk 1 1 0%N m s1; Done (a_shape d, a_data d)) in
  let as_null := mk_meta all_null [] 0%N [5]%N [1]%N 1 in let as_file := mk_meta specified [1%N] 0%N [5]%N [1]%N 1 in
  run 1%nat as_null = Done ([3]%nat, [0; 0; 0]%N) /\ run 0%nat as_null = Done ([1]%nat, [0]%N) /\
  run 1%nat as_file = Done ([3]%nat, [0; 0; 0]%N) /\ run 0%nat as_file = Done ([3]%nat, [0; 0; 0]%N).
Proof. vm_compute. split_and!; reflexivity. Qed.
Print Assumptions C28_overlap_refuted.
Example C28_hypotheses_nonvacuous :
  let m := mk_meta all_null [] 0%N [5]%N [2]%N 0 in let a := nv_arr [0; 2147483648]%N in
  let h2 := [SRegister (nv_meta 1) (nv_arr [7; 8]%N); SFlush id] in
  (forall x v, in_shape (a_shape a) x -> aread 1 a x = Some v -> null_vector v) /\
  valid_history 1 1 [1%nat] ∅ ([] ++ SRegister m a :: h2 ++ [SRetrieve m]) /\ Forall (leaves_alone (cm_id m)) h2.
Proof.
  cbv zeta. assert (forall x v, in_shape [2]%nat x -> aread 1 (nv_arr [0; 2147483648]%N) x = Some v -> null_vector v) as Hnull.
  { intros x v Hx Hv. apply in_shape_cons in Hx as (i & r & -> & Hi & Hr). destruct r; [|done].
    destruct i as [|[|i]]; [| |lia]; vm_compute in Hv; injection Hv as <-; (apply list.Forall_cons; split; [|constructor]); auto. }
  split; [exact Hnull|]. split; [|repeat constructor; done]. cbn [app valid_history].
  refine (conj _ (conj _ (conj _ (conj _ I)))).
  - split; [done|]. split; [|by intros k m c H; rewrite lookup_empty in H].
    split; [apply nv_arr_float; nv_small|]. split; [done|]. split; [apply (nv_countable 2); lia|]. right. split; [done|]. split; [done|].
    split; [|exact Hnull]. repeat constructor.
  - cbn [spec_step valid_op]. split; [done|]. split; [apply nv_ok; [done|nv_small]|].
    intros k m c H _. apply lookup_insert_Some in H as [[_ E]|[_ H]]; [|by rewrite lookup_empty in H]. injection E as <- _. done.
  - cbn [valid_op]. done.
  - eexists. cbn [spec_step]. rewrite lookup_insert_ne by done. rewrite lookup_insert. split; [done|by right].
Qed.
