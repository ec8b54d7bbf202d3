(** Crashes: the lists of file operations agree with the model, and the files of the last flush are not touched. *)
From stdpp Require Import base list list_numbers numbers option gmap countable sets.
From Coq Require Import NArith ZArith Lia.
From Verif Require Import NDArrayModel NullSupModel CodecModel StreamerModel CacheModel CacheProofs BBoxModel DownsampleModel RTreeModel ChunkMetaModel ChunkCacheModel LibraryModel LibrarySpec
  BoundaryModel RebuildModel CrashModel CrashSpec.

(** ** Worlds *)
Lemma run_app w o1 o2 : run w (o1 ++ o2) = run (run w o1) o2. Proof. apply foldl_app. Qed.
Lemma crashed_app w o1 o2 w' : crashed w (o1 ++ o2) w' -> crashed w o1 w' \/ crashed (run w o1) o2 w'.
Proof.
  revert w. induction o1 as [|o o1 IH]; intros w H; [by right|]. cbn [app] in H. inversion H; subst.
  - left. constructor.
  - left. by apply crash_torn.
  - destruct (IH _ H4) as [H'|H']; [left; by apply crash_later|by right].
Qed.
(** The operation changes the own directory only by writing chunk files whose names are not protected. *)
Definition safe (P : bytes -> Prop) (o : fop) : Prop :=
  match o with
  | Put Own (File n) _ | Patch Own (File n) _ | Cp Other (File n) | Mv Other (File n) => ~ P n
  | Put Other _ _ | Patch Other _ _ | Del Other _ | Cp Own _ => True
  | _ => False
  end.
(** Same index, and same contents of the protected files. *)
Definition alike (P : bytes -> Prop) (d d' : dir) : Prop := d_index d' = d_index d /\ forall n, P n -> d_files d' !! n = d_files d !! n.
Lemma alike_refl P d : alike P d d. Proof. done. Qed.
Lemma alike_trans P d1 d2 d3 : alike P d1 d2 -> alike P d2 d3 -> alike P d1 d3.
Proof. intros [H1 H2] [H3 H4]. split; [congruence|]. intros n Hn. rewrite H4, H2 by done. done. Qed.
Lemma alike_set P d n o : ~ P n -> alike P d (dset d (File n) o).
Proof. intros Hn. split; [done|]. intros n' Hn'. cbn [d_files dset]. rewrite lookup_partial_alter_ne; [done|]. by intros ->. Qed.
Lemma safe_run P w o : safe P o -> alike P w.1 (run1 w o).1.
Proof.
  destruct w as [w1 w2].
  destruct o as [[] [] b|[] [] b|[] []|[] []|[] []]; cbn [safe]; intros Hs; try done; cbn [run1 fset fst snd other]; try apply alike_refl; try (by apply alike_set).
Qed.
Lemma safe_torn P w o w' : safe P o -> torn w o w' -> alike P w.1 w'.1.
Proof.
  intros Hs Ht. destruct Ht as [[w1 w2] s n b b' Hb|[w1 w2] s n b b'|[w1 w2] s n b b' Hg Hb|[w1 w2] s n b b' Hg Hb]; destruct s, n; cbn [safe] in Hs; try done; cbn [fset fst snd other];
    try apply alike_refl; by apply alike_set.
Qed.
Lemma safe_crashed P ops w w' : Forall (safe P) ops -> crashed w ops w' -> alike P w.1 w'.1.
Proof.
  intros Hs Hc. induction Hc as [w ops|w o ops w' Ht|w o ops w' Hc IH]; [apply alike_refl| |].
  - apply list.Forall_cons in Hs as [Ho _]. by eapply safe_torn.
  - apply list.Forall_cons in Hs as [Ho Hs]. eapply alike_trans; [by apply (safe_run P w o)|by apply IH].
Qed.
Definition flipw (w : world) : world := (w.2, w.1).
Lemma run1_flip w o : run1 (flipw w) (flip o) = flipw (run1 w o).
Proof. destruct w as [w1 w2], o as [[]|[]|[]|[]|[]]; reflexivity. Qed.
Lemma run_flip w ops : run (flipw w) (flip <$> ops) = flipw (run w ops).
Proof. revert w. induction ops as [|o ops IH]; intros w; [done|]. unfold run in *. cbn [fmap list_fmap foldl]. by rewrite run1_flip, IH. Qed.
(** Operations of an array on its own directory. *)
Definition own_op (o : fop) : Prop := match o with Put Own _ _ | Patch Own _ _ | Del Own _ => True | _ => False end.
Lemma flip_safe P ops : Forall own_op ops -> Forall (safe P) (flip <$> ops).
Proof. intros H. apply Forall_fmap. eapply list.Forall_impl; [exact H|]. intros [[]|[]|[]|[]|[]]; done. Qed.

(** ** The chunk store *)
Section store.
Context (vd dims : nat) (junk : N) (P : bytes -> Prop).

Definition quietl (l : list (N * centry)) : Prop := forall k e, (k, e) ∈ l -> ce_st e <> Nothing -> ~ P (cm_path (ce_meta e)).
(** What is pending in the cache does not concern protected files. *)
Definition quiet (s : cstore) : Prop := exists l, cinv (s_cache s) l /\ quietl l.
(** The operations are those of the model, and safe. *)
Definition step (s : cstore) (ops : list fop) (s' : cstore) : Prop :=
  quiet s' /\ Forall (safe P) ops /\ Forall own_op ops /\ forall i o, run (Dir i (s_files s), o) ops = (Dir i (s_files s'), o).
Lemma quietl_perm l l' : l ≡ₚ l' -> quietl l -> quietl l'.
Proof. intros Hp H k e. rewrite <- Hp. apply H. Qed.
Lemma step_trans s1 o1 s2 o2 s3 : step s1 o1 s2 -> step s2 o2 s3 -> step s1 (o1 ++ o2) s3.
Proof.
  intros (_ & H1 & H2 & H3) (H4 & H5 & H6 & H7). split; [done|]. split; [by apply Forall_app|]. split; [by apply Forall_app|]. intros i o. by rewrite run_app, H3, H7.
Qed.
Lemma step_id s s' : quiet s' -> s_files s' = s_files s -> step s [] s'.
Proof. intros Hq E. split; [done|]. split; [done|]. split; [done|]. intros i o. cbn. by rewrite E. Qed.

Lemma put_run i fs o p b : run1 (Dir i fs, o) (Put Own (File p) b) = (Dir i (<[p := b]> fs), o).
Proof. reflexivity. Qed.
Lemma descope_step cs e fs fs' : (ce_st e <> Nothing -> ~ P (cm_path (ce_meta e))) -> descope vd dims cs e fs = Done fs' ->
  Forall (safe P) (descope_ops vd dims cs e fs) /\ Forall own_op (descope_ops vd dims cs e fs) /\ forall i o, run (Dir i fs, o) (descope_ops vd dims cs e fs) = (Dir i fs', o).
Proof.
  intros Hp H. unfold descope in H. unfold descope_ops. destruct (bool_decide (cm_path (ce_meta e) = [])) eqn:Eb.
  { destruct (cm_type (ce_meta e) =? specified)%N; [done|]. injection H as <-. done. }
  destruct (ce_st e) as [| |axis].
  - injection H as <-. done.
  - destruct (of_w _) as [b| |] eqn:E; cbn [mbind res_bind] in H; try done. injection H as <-. cbn [rdone].
    split; [constructor; [by apply Hp|constructor]|]. split; [by repeat constructor|]. reflexivity.
  - destruct (of_opt (fs !! _)) as [f| |] eqn:E0; cbn [mbind res_bind] in H |- *; try done. destruct (of_w _) as [b| |] eqn:E; cbn [mbind res_bind] in H; try done. injection H as <-. cbn [rdone].
    split; [constructor; [by apply Hp|constructor]|]. split; [by repeat constructor|]. reflexivity.
Qed.
Lemma make_room_step s s' : quiet s -> make_room vd dims s = Done s' -> step s (make_room_ops vd dims s) s'.
Proof.
  intros (l & Hc & Hq) H. unfold make_room in H. unfold make_room_ops. destruct (has_free_slot (s_cache s)) eqn:Ef.
  { injection H as <-. apply step_id; [by exists l|done]. }
  destruct (has_free_slot_spec _ _ Hc) as [Hfs Hle]. rewrite Ef in Hfs. symmetry in Hfs. apply Nat.ltb_ge in Hfs.
  destruct l as [|[k e] l]. { destruct Hc as (free & used & _ & _ & _ & Hpos & _). cbn in Hfs. lia. }
  cbn [length] in *. destruct (cevict_oldest_spec _ _ _ _ Hc ltac:(lia)) as (c' & Ee & Hc' & _). rewrite Ee in H |- *. cbn [of_opt mbind res_bind] in H. cbn [of_opt rdone fst].
  destruct (descope vd dims (s_cs s) e (s_files s)) as [fs| |] eqn:Ed; cbn [mbind res_bind] in H; try done. injection H as <-.
  destruct (descope_step _ _ _ _ (Hq k e ltac:(left)) Ed) as (H1 & H2 & H3). split; [|done]. exists l. split; [done|]. intros k' e' Hin. apply (Hq k'). by right.
Qed.
Lemma insert_step m a st s s' : quiet s -> insert_into_cache vd dims junk m a st s = Done s' -> (st <> Nothing -> ~ P (cm_path m)) -> step s (insert_ops vd dims m s) s'.
Proof.
  intros Hq H Hst. unfold insert_into_cache in H. unfold insert_ops. destruct (ccontains (s_cache s) (cm_id m)) eqn:Ec; [done|].
  destruct (make_room vd dims s) as [s1| |] eqn:E1; cbn [mbind res_bind] in H; try done. destruct (acopy vd junk a) as [d|]; cbn [of_opt mbind res_bind] in H; try done.
  destruct (cinsert (s_cache s1) (cm_id m) (CEntry m d st)) as [c|] eqn:Ei; cbn [of_opt mbind res_bind] in H; try done. injection H as <-.
  destruct (make_room_step _ _ Hq E1) as ((l & Hc & Hq') & H1 & H2 & H3). split; [|done].
  destruct (decide (cm_id m ∈ l.*1)) as [Hin|Hni]; [rewrite (cinsert_None _ _ _ _ Hc) in Ei by auto; done|].
  destruct (decide (length l < c_depth (s_cache s1))%nat) as [Hlt|Hge]; [|rewrite (cinsert_None _ _ _ _ Hc) in Ei by (right; lia); done].
  destruct (cinsert_spec _ _ _ (CEntry m d st) Hc Hni Hlt) as (c' & E & Hc' & _). rewrite E in Ei. injection Ei as <-. exists (l ++ [(cm_id m, CEntry m d st)]). split; [done|].
  intros k e. rewrite elem_of_app, elem_of_list_singleton. intros [Hin|[= -> ->]]; [by apply (Hq' k)|]. exact Hst.
Qed.
Lemma flush_keys_step ks s s' : quiet s -> flush_keys vd dims ks s = Done s' -> step s (flush_keys_ops vd dims ks s) s'.
Proof.
  revert s. induction ks as [|k ks IH]; intros s Hq H; cbn [flush_keys flush_keys_ops] in *. { injection H as <-. by apply step_id. }
  destruct Hq as (l & Hc & Hq). destruct (decide (k ∈ l.*1)) as [Hin|Hni]; [|rewrite (cevict_None _ _ _ Hc Hni) in H; done].
  apply elem_of_list_fmap in Hin as ([k' e] & -> & Hin). apply elem_of_list_split in Hin as (l1 & l2 & ->). cbn [fst] in *.
  destruct (cevict_spec _ _ _ _ _ Hc) as (c' & Ee & Hc' & _). rewrite Ee in H |- *. cbn [of_opt mbind res_bind] in H. cbn [of_opt rdone fst snd].
  destruct (descope vd dims (s_cs s) e (s_files s)) as [fs| |] eqn:Ed; cbn [mbind res_bind] in H; try done. cbn [rdone].
  destruct (descope_step _ _ _ _ (Hq k' e ltac:(apply elem_of_app; right; left)) Ed) as (H1 & H2 & H3).
  apply (step_trans s _ (CStore (s_size s) (s_cs s) c' fs)); [|apply IH; [|done]].
  - split; [|done]. exists (l1 ++ l2). split; [done|]. intros k e' Hin. apply (Hq k). rewrite elem_of_app in *. destruct Hin; [by left|]. right. by right.
  - exists (l1 ++ l2). split; [done|]. intros k e' Hin. apply (Hq k). rewrite elem_of_app in *. destruct Hin; [by left|]. right. by right.
Qed.
Lemma flush_cache_step ord s s' : quiet s -> flush_cache vd dims ord s = Done s' -> step s (flush_cache_ops vd dims ord s) s'.
Proof. apply flush_keys_step. Qed.
Lemma register_step m a s s' : quiet s -> register_new_chunk vd dims junk m a s = Done s' -> ~ P (cm_path m) -> step s (register_ops vd dims junk m a s) s'.
Proof.
  intros Hq H Hm. unfold register_new_chunk in H. unfold register_ops. destruct (insert_into_cache vd dims junk m a Serialize s) as [s1| |] eqn:E1; cbn [mbind res_bind] in H; try done. cbn [rdone].
  pose proof (insert_step _ _ _ _ _ Hq E1 (fun _ => Hm)) as Hi. eapply step_trans; [exact Hi|]. destruct Hi as (Hq1 & _). unfold flush_if_uncached in H. unfold uncached_ops. destruct (s_size s1 =? 0)%nat.
  - by apply flush_cache_step.
  - injection H as <-. by apply step_id.
Qed.
Lemma retrieve_step m s d s' : quiet s -> retrieve_chunk vd dims junk m s = Done (d, s') -> step s (retrieve_ops vd dims m s) s'.
Proof.
  intros Hq H. unfold retrieve_chunk in H. unfold retrieve_ops. destruct (ccontains (s_cache s) (cm_id m)) eqn:Ec.
  - destruct Hq as (l & Hc & Hq). rewrite (ccontains_spec _ _ _ Hc) in Ec. apply bool_decide_eq_true in Ec. apply elem_of_list_fmap in Ec as ([k e] & Ek & Hin). cbn [fst] in Ek. subst k.
    apply elem_of_list_split in Hin as (l1 & l2 & ->). destruct (cget_spec _ _ _ _ _ Hc) as (c' & Eg & Hc' & _). rewrite Eg in H |- *. cbn [of_opt mbind res_bind] in H. cbn [of_opt rdone fst snd].
    assert (quietl (l1 ++ l2 ++ [(cm_id m, e)])) as Hq'. { eapply quietl_perm; [|exact Hq]. rewrite (Permutation_app_comm l2). done. }
    destruct (ce_st e) as [| |axis] eqn:Es.
    + injection H as <- <-. apply step_id; [by eexists|done].
    + injection H as <- <-. apply step_id; [by eexists|done].
    + destruct (sync_entry vd dims junk e (s_files s)) as [[e' fs]| |] eqn:Esy; cbn [mbind res_bind] in H; try done.
      rewrite app_assoc in Hc'. destruct (cupdate_spec c' (l1 ++ l2) (cm_id m) e [] e' Hc') as (c2 & Eu & Hc2 & _). rewrite Eu in H. cbn [of_opt mbind res_bind] in H. injection H as <- <-.
      unfold sync_entry in Esy. unfold sync_ops. rewrite Es in Esy |- *. destruct (cm_type (ce_meta e) =? all_null)%N; [done|].
      destruct (s_files s !! cm_path (ce_meta e)) as [f|]; cbn [of_opt mbind res_bind] in Esy |- *; try done. destruct (of_w _) as [b| |]; cbn [mbind res_bind] in Esy |- *; try done.
      destruct (deserialize _ _ _ _ _) as [[d' r]|]; cbn [of_opt mbind res_bind] in Esy; try done. injection Esy as <- <-. cbn [rdone].
      assert (~ P (cm_path (ce_meta e))) as HP. { apply (Hq (cm_id m)); [apply elem_of_app; right; left|congruence]. }
      split; [|split; [constructor; [exact HP|constructor]|split; [by repeat constructor|reflexivity]]].
      eexists. split; [exact Hc2|]. intros k' e2. rewrite elem_of_app, app_nil_l, elem_of_list_singleton. intros [Hin|[= -> ->]].
      * apply (Hq k'). rewrite elem_of_app in *. destruct Hin; [by left|]. right. by right.
      * done.
  - unfold deserialize_into_cache in H. destruct (make_room vd dims s) as [s1| |] eqn:E1; cbn [mbind res_bind] in H; try done.
    destruct (load_chunk vd dims junk m (s_files s1)) as [d'| |]; cbn [mbind res_bind] in H; try done. destruct (cinsert (s_cache s1) (cm_id m) (CEntry m d' Nothing)) as [c|] eqn:Ei; cbn [of_opt mbind res_bind] in H; try done. injection H as <- <-.
    destruct (make_room_step _ _ Hq E1) as ((l & Hc & Hq') & H1 & H2 & H3). split; [|done].
    destruct (decide (cm_id m ∈ l.*1)) as [Hin|Hni]; [rewrite (cinsert_None _ _ _ _ Hc) in Ei by auto; done|].
    destruct (decide (length l < c_depth (s_cache s1))%nat) as [Hlt|Hge]; [|rewrite (cinsert_None _ _ _ _ Hc) in Ei by (right; lia); done].
    destruct (cinsert_spec _ _ _ (CEntry m d' Nothing) Hc Hni Hlt) as (c' & E & Hc' & _). rewrite E in Ei. injection Ei as <-. exists (l ++ [(cm_id m, CEntry m d' Nothing)]). split; [done|].
    intros k e. rewrite elem_of_app, elem_of_list_singleton. intros [Hin|[= -> ->]]; [by apply (Hq' k)|]. done.
Qed.
End store.
