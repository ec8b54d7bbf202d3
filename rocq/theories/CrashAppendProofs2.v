(** Crashes while slices are appended, part 2: AppendSlice and RegisterNewChunk of the chunk store. *)
From stdpp Require Import base list list_numbers numbers option gmap countable sets.
From Coq Require Import NArith ZArith Lia.
From Verif Require Import IndexSpec LoopsModel NDArrayModel NDArrayProps NullSupModel CodecModel StreamerModel StreamerProps CacheModel CacheProofs BBoxModel BBoxProps DownsampleModel
  RTreeModel ChunkMetaModel ChunkMetaProps ChunkCacheModel ChunkCacheSpec ChunkCacheProofs ChunkCacheProofs2 ChunkCacheProofs3
  LibraryModel LibrarySpec CrashModel CrashSpec CrashProofs CrashProofs2 CrashAppendModel CrashAppendProofs.
From Verif Require Import IndexSpec LibrarySpec.

Section store.
Context (vd dims : nat) (junk : N).

(** AppendSlice before the cache is flushed. *)
Definition append_pre (axis : nat) (m : chunk_meta) (slice : ndarr N) (s : cstore) : res cstore :=
  if ccontains (s_cache s) (cm_id m) then
    '(e, c) ← of_opt (cget (s_cache s) (cm_id m));
    match ce_st e with
    | Nothing =>
        '(_, c1) ← of_opt (cevict c (cm_id m));
        insert_into_cache vd dims junk m slice (AppendTo axis) (CStore (s_size s) (s_cs s) c1 (s_files s))
    | Serialize =>
        d ← append_in_memory vd junk axis (ce_data e) slice;
        c1 ← of_opt (cupdate c (cm_id m) (CEntry m d Serialize));
        Done (CStore (s_size s) (s_cs s) c1 (s_files s))
    | AppendTo axis0 =>
        '(e1, fs) ← (if (axis0 =? axis)%nat then Done (e, s_files s)
                      else '(e1, fs) ← sync_entry vd dims junk e (s_files s); Done (CEntry (ce_meta e1) (ce_data e1) (AppendTo axis), fs));
        d ← append_in_memory vd junk axis (ce_data e1) slice;
        c1 ← of_opt (cupdate c (cm_id m) (CEntry m d (ce_st e1)));
        Done (CStore (s_size s) (s_cs s) c1 fs)
    end
  else insert_into_cache vd dims junk m slice (AppendTo axis) s.
Definition append_pre_ops (axis : nat) (m : chunk_meta) (s : cstore) : list fop :=
  if ccontains (s_cache s) (cm_id m) then
    rdone (of_opt (cget (s_cache s) (cm_id m))) (fun ec =>
      match ce_st ec.1 with
      | Nothing => rdone (of_opt (cevict ec.2 (cm_id m))) (fun ec1 => insert_ops vd dims m (CStore (s_size s) (s_cs s) ec1.2 (s_files s)))
      | Serialize => []
      | AppendTo axis0 => if (axis0 =? axis)%nat then [] else sync_ops vd dims ec.1 (s_files s)
      end)
  else insert_ops vd dims m s.
Lemma append_unfold axis m0 slice s m' s' : cache_append_slice vd dims junk axis m0 slice s = Done (m', s') ->
  exists s2, (n ← a_shape slice !! axis; grow_chunk axis (N.of_nat n) m0) = Some m' /\ append_pre axis m' slice s = Done s2 /\ flush_if_uncached vd dims s2 = Done s' /\
    cache_append_ops vd dims junk axis m0 slice s = append_pre_ops axis m' s ++ uncached_ops vd dims s2.
Proof using.
  unfold cache_append_slice, cache_append_ops, append_pre, append_pre_ops. destruct (shape_allows_concat _ _ _); [|discriminate].
  destruct (a_shape slice !! axis ≫= _) as [m|]; cbn [of_opt mbind res_bind rdone]; [|discriminate].
  destruct (ccontains (s_cache s) (cm_id m)) eqn:Ec.
  - destruct (cget (s_cache s) (cm_id m)) as [[e c]|] eqn:Eg; cbn [of_opt mbind res_bind rdone fst snd]; [|discriminate].
    destruct (ce_st e) as [| |ax] eqn:Est.
    + destruct (cevict c (cm_id m)) as [[e1 c1]|] eqn:Ev; cbn [of_opt mbind res_bind rdone fst snd]; [|discriminate].
      destruct (insert_into_cache _ _ _ _ _ _ _) as [s2| |] eqn:E2; cbn [mbind res_bind rdone]; try discriminate. destruct (flush_if_uncached vd dims s2) as [s3| |] eqn:E3; cbn [mbind res_bind]; try discriminate.
      intros [= <- <-]. exists s2. rewrite Ec, Eg. cbn [of_opt mbind res_bind rdone fst snd]. rewrite Est. rewrite Ev. cbn [of_opt mbind res_bind rdone fst snd]. done.
    + destruct (append_in_memory _ _ _ _ _) as [d| |] eqn:Ed; cbn [mbind res_bind rdone]; try discriminate. destruct (cupdate _ _ _) as [c1|] eqn:Eu; cbn [of_opt mbind res_bind rdone]; try discriminate.
      destruct (flush_if_uncached vd dims _) as [s3| |] eqn:E3; cbn [mbind res_bind]; try discriminate. intros [= <- <-]. eexists. rewrite Ec, Eg. cbn [of_opt mbind res_bind rdone fst snd]. rewrite Est. rewrite Ed. cbn [of_opt mbind res_bind rdone fst snd]. rewrite Eu. cbn [of_opt mbind res_bind rdone fst snd]. done.
    + match goal with |- ((?x ≫= _) ≫= _) = _ -> _ => destruct x as [[e1 fs]| |] eqn:E1 end; cbn [mbind res_bind rdone]; try discriminate.
      destruct (append_in_memory _ _ _ _ _) as [d| |] eqn:Ed; cbn [mbind res_bind rdone]; try discriminate. destruct (cupdate _ _ _) as [c1|] eqn:Eu; cbn [of_opt mbind res_bind rdone]; try discriminate.
      destruct (flush_if_uncached vd dims _) as [s3| |] eqn:E3; cbn [mbind res_bind]; try discriminate. intros [= <- <-]. eexists. rewrite Ec, Eg. cbn [of_opt mbind res_bind rdone fst snd]. rewrite Est. rewrite E1. cbn [of_opt mbind res_bind rdone fst snd].
      rewrite Ed. cbn [of_opt mbind res_bind rdone fst snd]. rewrite Eu. cbn [of_opt mbind res_bind rdone fst snd]. done.
  - destruct (insert_into_cache _ _ _ _ _ _ _) as [s2| |] eqn:E2; cbn [mbind res_bind rdone]; try discriminate. destruct (flush_if_uncached vd dims s2) as [s3| |] eqn:E3; cbn [mbind res_bind]; try discriminate.
    intros [= <- <-]. exists s2. rewrite Ec. done.
Qed.

(** Nothing but the final flush depends on the configured size. *)
Definition resize (n : nat) (s : cstore) : cstore := CStore n (s_cs s) (s_cache s) (s_files s).
Lemma resize_same s : resize (s_size s) s = s. Proof using. by destruct s. Qed.
Lemma make_room_resize n s s1 : make_room vd dims s = Done s1 -> make_room vd dims (resize n s) = Done (resize n s1).
Proof using.
  unfold make_room, resize. cbn [s_cache s_files s_cs s_size]. destruct (has_free_slot _). { by intros [= <-]. } destruct (cevict_oldest _) as [[e c]|]; cbn [of_opt mbind res_bind]; [|discriminate].
  destruct (descope _ _ _ _ _) as [fs| |]; cbn [mbind res_bind]; try discriminate. by intros [= <-].
Qed.
Lemma insert_resize n m a st s s1 : insert_into_cache vd dims junk m a st s = Done s1 -> insert_into_cache vd dims junk m a st (resize n s) = Done (resize n s1).
Proof using.
  unfold insert_into_cache. cbn [s_cache resize]. destruct (ccontains _ _); [discriminate|]. destruct (make_room vd dims s) as [s2| |] eqn:E; cbn [mbind res_bind]; try discriminate.
  rewrite (make_room_resize n _ _ E). cbn [mbind res_bind]. destruct (acopy _ _ _) as [d|]; cbn [of_opt mbind res_bind]; [|discriminate]. cbn [s_cache resize]. destruct (cinsert _ _ _) as [c|]; cbn [of_opt mbind res_bind]; [|discriminate]. by intros [= <-].
Qed.
Lemma append_pre_resize n axis m slice s s1 : append_pre axis m slice s = Done s1 -> append_pre axis m slice (resize n s) = Done (resize n s1).
Proof using.
  unfold append_pre. cbn [s_cache s_files s_cs s_size resize]. destruct (ccontains _ _); [|apply insert_resize].
  destruct (cget _ _) as [[e c]|]; cbn [of_opt mbind res_bind]; [|discriminate]. destruct (ce_st e) as [| |ax].
  - destruct (cevict _ _) as [[e1 c1]|]; cbn [of_opt mbind res_bind]; [|discriminate]. intros H. apply (insert_resize n) in H. exact H.
  - destruct (append_in_memory _ _ _ _ _); cbn [mbind res_bind]; try discriminate. destruct (cupdate _ _ _); cbn [of_opt mbind res_bind]; [|discriminate]. by intros [= <-].
  - match goal with |- (?x ≫= _) = _ -> _ => destruct x as [[e1 fs]| |] end; cbn [mbind res_bind]; try discriminate.
    destruct (append_in_memory _ _ _ _ _); cbn [mbind res_bind]; try discriminate. destruct (cupdate _ _ _); cbn [of_opt mbind res_bind]; [|discriminate]. by intros [= <-].
Qed.
Lemma sinv_resize cs sz n s A : Nat.max 1 n = Nat.max 1 (s_size s) -> sinv vd dims cs sz s A -> sinv vd dims cs sz (resize n s) A.
Proof using. intros E (l & H1 & H2 & H3 & H4). exists l. split; [done|]. split; [done|]. split; [cbn [resize s_cache s_size]; congruence|done]. Qed.

Context (cs : list nat) (sz : N -> list nat) (Hacc : forall k, acceptable_chunk dims (sz k)) (Hdims : (0 < dims)%nat).
Context (P : bytes -> Prop) (OK : bytes -> bytes -> Prop).
Notation sstate := (gmap N (chunk_meta * content)).
Notation sinv := (sinv vd dims cs sz).
Notation suits := (suits vd dims sz P OK).
Notation fit := (fit P OK).
Notation nosq := (nosq P).

(** The store after the insertion and before the flush. *)
Lemma append_pre_inv s A m slice m' s2 : sinv s A -> valid_op vd dims (sz (cm_id m)) A (SAppend m slice) ->
  (n ← a_shape slice !! 0%nat; grow_chunk 0 (N.of_nat n) m) = Some m' -> append_pre 0 m' slice s = Done s2 -> sinv s2 (spec_step vd A (SAppend m slice)).
Proof using Hacc Hdims.
  intros Hs Hv Hm Hp. set (n := Nat.max 1 (s_size s)). pose proof (sinv_resize cs sz n s A ltac:(lia) Hs) as Hsn.
  destruct (append_ok vd dims junk cs sz Hacc Hdims (resize n s) A m slice Hsn Hv) as (s3 & E3 & Hs3 & _).
  destruct (append_unfold _ _ _ _ _ _ E3) as (s4 & Em & E4 & Ef & _). rewrite Hm in Em. injection Em as ->. rewrite (append_pre_resize n _ _ _ _ _ Hp) in E4. injection E4 as <-.
  unfold flush_if_uncached in Ef. cbn [resize s_size] in Ef. destruct (Nat.eqb_spec n 0) as [E|_]; [unfold n in E; lia|]. injection Ef as <-.
  assert (s_size s2 = s_size s) as Esz.
  { clear -Hp. unfold append_pre in Hp. destruct (ccontains _ _).
    - destruct (cget _ _) as [[e c]|]; cbn [of_opt mbind res_bind] in Hp; [|discriminate]. destruct (ce_st e) as [| |ax].
      + destruct (cevict _ _) as [[e1 c1]|]; cbn [of_opt mbind res_bind] in Hp; [|discriminate]. clear -Hp. unfold insert_into_cache, make_room in Hp. cbn [s_cache s_cs s_files s_size] in Hp. destruct (ccontains _ _); [discriminate|]. destruct (has_free_slot _); cbn [mbind res_bind] in Hp.
        * destruct (acopy _ _ _); cbn [of_opt mbind res_bind] in Hp; [|discriminate]. destruct (cinsert _ _ _); cbn [of_opt mbind res_bind] in Hp; [|discriminate]. by injection Hp as <-.
        * destruct (cevict_oldest _) as [[e2 c2]|]; cbn [of_opt mbind res_bind] in Hp; [|discriminate]. destruct (descope _ _ _ _ _); cbn [mbind res_bind] in Hp; try discriminate.
          destruct (acopy _ _ _); cbn [of_opt mbind res_bind] in Hp; [|discriminate]. destruct (cinsert _ _ _); cbn [of_opt mbind res_bind] in Hp; [|discriminate]. by injection Hp as <-.
      + destruct (append_in_memory _ _ _ _ _); cbn [mbind res_bind] in Hp; try discriminate. destruct (cupdate _ _ _); cbn [of_opt mbind res_bind] in Hp; [|discriminate]. by injection Hp as <-.
      + match type of Hp with (?x ≫= _) = _ => destruct x as [[e1 fs]| |] end; cbn [mbind res_bind] in Hp; try discriminate.
        destruct (append_in_memory _ _ _ _ _); cbn [mbind res_bind] in Hp; try discriminate. destruct (cupdate _ _ _); cbn [of_opt mbind res_bind] in Hp; [|discriminate]. by injection Hp as <-.
    - unfold insert_into_cache, make_room in Hp. destruct (ccontains _ _); [discriminate|]. destruct (has_free_slot _); cbn [mbind res_bind] in Hp.
      + destruct (acopy _ _ _); cbn [of_opt mbind res_bind] in Hp; [|discriminate]. destruct (cinsert _ _ _); cbn [of_opt mbind res_bind] in Hp; [|discriminate]. by injection Hp as <-.
      + destruct (cevict_oldest _) as [[e2 c2]|]; cbn [of_opt mbind res_bind] in Hp; [|discriminate]. destruct (descope _ _ _ _ _); cbn [mbind res_bind] in Hp; try discriminate.
        destruct (acopy _ _ _); cbn [of_opt mbind res_bind] in Hp; [|discriminate]. destruct (cinsert _ _ _); cbn [of_opt mbind res_bind] in Hp; [|discriminate]. by injection Hp as <-. }
  apply (sinv_resize _ _ (s_size s2)) in Hs3; [|cbn [resize s_size]; lia]. unfold resize in Hs3. cbn [s_cs s_cache s_files] in Hs3. by rewrite <- (resize_same s2).
Qed.
(** Evicting an entry with nothing pending. *)
Lemma evicted_inv s A k e c c1 e1 : sinv s A -> cget (s_cache s) k = Some (e, c) -> ce_st e = Nothing -> cevict c k = Some (e1, c1) -> ccontains (s_cache s) k = true ->
  sinv (CStore (s_size s) (s_cs s) c1 (s_files s)) A /\ (nosq s -> nosq (CStore (s_size s) (s_cs s) c1 (s_files s))).
Proof using.
  clear Hacc Hdims.
  intros (l & Hs) Eg Est Ev Ec. pose proof Hs as (Hcs & Hc & Hdep & Hinv). rewrite (ccontains_spec _ _ _ Hc) in Ec. apply bool_decide_eq_true in Ec. apply in_split_fst in Ec as (e' & l1 & l2 & ->).
  destruct (cget_spec _ _ _ _ _ Hc) as (c' & Eg' & Hc' & Hd'). rewrite Eg in Eg'. injection Eg' as <- <-.
  rewrite app_assoc in Hc'. destruct (cevict_spec c (l1 ++ l2) k e [] Hc') as (c2 & Ev' & Hc2 & Hd2). rewrite Ev in Ev'. injection Ev' as -> ->. rewrite app_nil_r in Hc2.
  pose proof (nodup_mid _ _ _ (cinv_nodup _ _ Hc)) as Hnd. split.
  - exists (l1 ++ l2). split; [done|]. split; [exact Hc2|]. split; [cbn [s_cache s_size]; congruence|]. cbn [s_files]. eapply linv_drop_nothing; [exact Hnd| |exact Est]. by eapply linv_perm; [apply perm_mid|].
  - intros Hn. pose proof (nosq_nos _ _ _ Hn Hc) as Hnl. exists (l1 ++ l2). split; [exact Hc2|]. eapply nos_sub; [exact Hnl|]. intros x Hx. rewrite elem_of_app in *. destruct Hx; [by left|]. right. by right.
Qed.
Lemma quiet_any s : (exists l, cinv (s_cache s) l) -> quiet any s.
Proof using. intros [l H]. exists l. split; [done|]. by intros k e _ _ []. Qed.
Lemma sinv_quiet s A : sinv s A -> quiet any s.
Proof using. intros (l & _ & H & _). apply quiet_any. by exists l. Qed.

Lemma append_step s A m slice m' s' : sinv s A -> nosq s -> suits A -> suits (spec_step vd A (SAppend m slice)) ->
  valid_op vd dims (sz (cm_id m)) A (SAppend m slice) -> cache_append_slice vd dims junk 0 m slice s = Done (m', s') ->
  Forall fit (cache_append_ops vd dims junk 0 m slice s) /\ nosq s' /\ forall i o, run (Dir i (s_files s), o) (cache_append_ops vd dims junk 0 m slice s) = (Dir i (s_files s'), o).
Proof using Hacc Hdims.
  intros Hs Hn HA HA' Hv H. destruct (append_unfold _ _ _ _ _ _ H) as (s2 & Em & Hp & Hf & ->). pose proof (append_pre_inv _ _ _ _ _ _ Hs Hv Em Hp) as Hs2.
  destruct Hv as (c & Hk & Hty & _). pose proof Em as Em0. assert (cm_id m' = cm_id m /\ cm_path m' = cm_path m) as [Hid Hpath].
  { destruct (a_shape slice !! 0%nat) as [n|]; cbn [mbind option_bind] in Em; [|discriminate]. clear -Em. unfold grow_chunk in Em. repeat (match type of Em with (?x ≫= _) = _ => destruct x; cbn [mbind option_bind] in Em; [|discriminate] end). by injection Em as <-. }
  assert (Forall fit (append_pre_ops 0 m' s) /\ nosq s2 /\ forall i o, run (Dir i (s_files s), o) (append_pre_ops 0 m' s) = (Dir i (s_files s2), o)) as (F1 & F2 & F3).
  { clear H Hf Em Em0 HA'. unfold append_pre in Hp. unfold append_pre_ops. destruct (ccontains (s_cache s) (cm_id m')) eqn:Ec.
    - destruct (cget (s_cache s) (cm_id m')) as [[e c0]|] eqn:Eg; cbn [of_opt mbind res_bind] in Hp; [|discriminate]. cbn [of_opt rdone fst snd].
      destruct (ce_st e) as [| |ax] eqn:Est.
      + destruct (cevict c0 (cm_id m')) as [[e1 c1]|] eqn:Ev; cbn [of_opt mbind res_bind] in Hp; [|discriminate]. cbn [of_opt rdone fst snd].
        destruct (evicted_inv _ _ _ _ _ _ _ Hs Eg Est Ev Ec) as [Hs1 Hn1]. specialize (Hn1 Hn). split; [|split].
        * by eapply insert_fit.
        * eapply insert_nosq; [exact Hn1|exact Hp|]. done.
        * pose proof (insert_step vd dims junk any _ _ _ _ _ (sinv_quiet _ _ Hs1) Hp ltac:(by intros _ [])) as (_ & _ & _ & Hr). exact Hr.
      + destruct (append_in_memory _ _ _ _ _) as [d| |]; cbn [mbind res_bind] in Hp; try discriminate. destruct (cupdate c0 _ _) as [c1|] eqn:Eu; cbn [of_opt mbind res_bind] in Hp; [|discriminate]. injection Hp as <-.
        split; [constructor|]. split; [|done]. destruct Hs as (l & Hs). pose proof Hs as (_ & Hc & _). pose proof (nosq_nos _ _ _ Hn Hc) as Hnl. rewrite (ccontains_spec _ _ _ Hc) in Ec. apply bool_decide_eq_true in Ec. apply in_split_fst in Ec as (e' & l1 & l2 & ->).
        destruct (cget_spec _ _ _ _ _ Hc) as (c' & Eg' & Hc' & _). rewrite Eg in Eg'. injection Eg' as <- <-. rewrite app_assoc in Hc'.
        destruct (cupdate_spec c0 (l1 ++ l2) (cm_id m') e [] (CEntry m' d Serialize) Hc') as (c2 & Eu' & Hc2 & _). rewrite Eu in Eu'. injection Eu' as ->. eexists. split; [exact Hc2|].
        destruct (entry_at _ _ _ _ _ _ _ (cm_id m') e Hs ltac:(apply elem_of_app; right; left)) as (m1 & c1 & Hk1 & Hid1 & He1 & _). 
        intros k' e2. rewrite elem_of_app, app_nil_l, elem_of_list_singleton. intros [Hin|[= -> ->]].
        * apply (Hnl k'). rewrite elem_of_app in *. destruct Hin; [by left|]. right. by right.
        * cbn [ce_meta ce_st]. intros _. rewrite Hid, Hk in Hk1. injection Hk1 as <- <-. assert (cm_path m' = cm_path (ce_meta e)) as ->; [|apply (Hnl (cm_id m')); [apply elem_of_app; right; left|done]].
          rewrite He1. exact Hpath.
      + destruct Hs as (l & Hs). pose proof Hs as (_ & Hc & _). pose proof (nosq_nos _ _ _ Hn Hc) as Hnl. rewrite (ccontains_spec _ _ _ Hc) in Ec. apply bool_decide_eq_true in Ec. apply in_split_fst in Ec as (e' & l1 & l2 & ->).
        destruct (cget_spec _ _ _ _ _ Hc) as (c' & Eg' & Hc' & _). rewrite Eg in Eg'. injection Eg' as <- <-. rewrite app_assoc in Hc'.
        destruct (entry_at _ _ _ _ _ _ _ (cm_id m') e Hs ltac:(apply elem_of_app; right; left)) as (m1 & c1 & Hk1 & Hid1 & He1 & _ & Hx). rewrite Est in Hx. destruct Hx as (-> & _).
        cbn [Nat.eqb mbind res_bind] in Hp |- *. destruct (append_in_memory _ _ _ _ _) as [d| |]; cbn [mbind res_bind] in Hp; try discriminate. destruct (cupdate c0 _ _) as [c2|] eqn:Eu; cbn [of_opt mbind res_bind] in Hp; [|discriminate]. injection Hp as <-.
        split; [constructor|]. split; [|done]. rewrite Est in Eu. destruct (cupdate_spec c0 (l1 ++ l2) (cm_id m') e [] (CEntry m' d (AppendTo 0)) Hc') as (c3 & Eu' & Hc2 & _). rewrite Eu in Eu'. injection Eu' as ->. eexists. split; [exact Hc2|].
        intros k' e2. rewrite elem_of_app, app_nil_l, elem_of_list_singleton. intros [Hin|[= -> ->]].
        * apply (Hnl k'). rewrite elem_of_app in *. destruct Hin; [by left|]. right. by right.
        * done.
    - split; [by eapply insert_fit|]. split; [eapply insert_nosq; [exact Hn|exact Hp|done]|].
      pose proof (insert_step vd dims junk any _ _ _ _ _ (sinv_quiet _ _ Hs) Hp ltac:(by intros _ [])) as (_ & _ & _ & Hr). exact Hr. }
  split; [|split].
  - apply Forall_app. split; [exact F1|]. by eapply uncached_fit.
  - by eapply uncached_nosq.
  - intros i o. rewrite run_app, F3. unfold flush_if_uncached in Hf. unfold uncached_ops. destruct (s_size s2 =? 0)%nat.
    + destruct (flush_cache_step vd dims any id _ _ (sinv_quiet _ _ Hs2) Hf) as (_ & _ & _ & Hr). apply Hr.
    + by injection Hf as <-.
Qed.
Lemma register_fit s A m a s' : sinv s A -> nosq s -> suits A -> ~ P (cm_path m) -> A !! cm_id m = None -> ok_chunk vd dims cs m a -> sz (cm_id m) = cs -> own_file A m ->
  register_new_chunk vd dims junk m a s = Done s' -> Forall fit (register_ops vd dims junk m a s) /\ nosq s'.
Proof using Hacc Hdims.
  intros [l Hs] Hn HA HP Hnone Hok Hszm Hown Hr. pose proof Hok as (Hfa & Hl & _).
  assert (cm_id m ∉ l.*1) as Hk.
  { intros H. apply in_split_fst in H as (e & u & v & ->). destruct Hs as (_ & _ & _ & [H1 _]).
    destruct (H1 (cm_id m) e) as [y Hy]; [apply elem_of_app; right; left|]. congruence. }
  destruct (insert_into_cache_ok vd dims junk cs sz Hacc Hdims s l A m a Serialize Hs Hk Hfa) as (s1 & l1 & d & c' & Hs1 & Hk1 & Hfd & Hhd & Hsz & Hc' & Hdep & Hins).
  unfold register_ops, register_new_chunk in *. rewrite Hins in Hr |- *. cbn [mbind res_bind rdone] in *. pose proof (insert_nosq vd dims junk P _ _ _ _ _ Hn Hins (fun _ => HP)) as Hn1. split.
  - apply Forall_app. split; [by eapply insert_fit; [done|done|by exists l|done|exact HA]|]. eapply (uncached_fit _ _ cs sz Hacc Hdims P OK _ (<[cm_id m := (m, content_of vd a)]> A)); [|done|].
    + eexists. split; [done|]. split; [exact Hc'|]. split; [done|]. apply linv_insert; auto; [apply Hs1|].
      apply ok_chunk_entry; auto. apply Hhd. apply holds_content_of, Hfa.
    + intros k m1 c1 b Hk0 HPk Hb. apply lookup_insert_Some in Hk0 as [[<- [= <- <-]]|[_ Hk0]]; [done|]. by eapply HA.
  - by eapply uncached_nosq.
Qed.
End store.
