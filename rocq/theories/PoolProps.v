(** Property theorem C16. *)
From stdpp Require Import base list list_numbers numbers option sorting.
From Verif Require Import CacheModel CacheProofs NDArrayModel PoolModel PoolProofs.

(** [pool_history dflt n p live]: [p] results from a sequence of calls on a new pool of initial
    size [n]; [live] lists the slots handed out and not freed since, in order of allocation,
    each with the value last stored in it. *)
Inductive pool_history {T} (dflt : T) (n : nat) : pool T -> list (nat * T) -> Prop :=
  | ph_new p : pool_new dflt n = Some p -> pool_history dflt n p []
  | ph_alloc p live x v p1 p2 : pool_history dflt n p live -> pool_alloc dflt p = Some (x, p1) -> pool_set p1 x v = Some p2 ->
      pool_history dflt n p2 (live ++ [(x, v)])
  | ph_write p l1 x v l2 w p1 : pool_history dflt n p (l1 ++ (x, v) :: l2) -> pool_set p x w = Some p1 ->
      pool_history dflt n p1 (l1 ++ (x, w) :: l2)
  | ph_free p l1 x v l2 p1 : pool_history dflt n p (l1 ++ (x, v) :: l2) -> pool_free p x = Some p1 ->
      pool_history dflt n p1 (l1 ++ l2)
  | ph_grow p live p1 : pool_history dflt n p live -> pool_grow dflt p = Some p1 -> pool_history dflt n p1 live
  | ph_reset p live p1 : pool_history dflt n p live -> pool_reset dflt p = Some p1 -> pool_history dflt n p1 [].

Section proofs.
Context {T : Type} (dflt : T) (n : nat).
Hypothesis Hn : (0 < n)%nat.

Definition live_rel (p : pool T) (live : list (nat * T)) : Prop :=
  (exists fr, pinv p fr live.*1) /\ Forall (fun xv => p_data p !! xv.1 = Some xv.2) live /\ (0 < length (p_data p))%nat /\ p_init p = n.

Lemma live_rel_set p al fr x w p1 live : pinv p fr al -> (x < length (p_data p))%nat -> pool_set p x w = Some p1 ->
  al = live.*1 -> p_init p = n ->
  Forall (fun xv => xv.1 = x /\ xv.2 = w \/ xv.1 <> x /\ p_data p !! xv.1 = Some xv.2) live -> live_rel p1 live.
Proof.
  intros Hp Hx Hset -> Hi Hf. destruct (pool_set_spec _ _ _ x w Hp Hx) as (p2 & Hset2 & Hp2 & Hd & Hi2).
  rewrite Hset in Hset2. injection Hset2 as <-. split_and!; eauto; [|by rewrite Hd, insert_length; lia|congruence].
  eapply list.Forall_impl; [exact Hf|]. intros [y v] [[-> ->]|[Hne Hy]]; simpl in *; rewrite Hd.
  - by rewrite list_lookup_insert.
  - by rewrite list_lookup_insert_ne.
Qed.

Lemma history_rel p live : pool_history dflt n p live -> live_rel p live.
Proof.
  induction 1 as [p Hnew|p live x v p1 p2 _ ((fr & Hp) & Hf & Hpos & Hi) Hal Hset|p l1 x v l2 w p1 _ ((fr & Hp) & Hf & Hpos & Hi) Hset
                 |p l1 x v l2 p1 _ ((fr & Hp) & Hf & Hpos & Hi) Hfree|p live p1 _ ((fr & Hp) & Hf & Hpos & Hi) Hg|p live p1 _ ((fr & Hp) & Hf & Hpos & Hi) Hr].
  - destruct (pool_fresh_spec dflt n) as (p' & Hnew' & Hp & Hd & Hi). unfold pool_new in Hnew. rewrite Hnew in Hnew'. injection Hnew' as <-.
    split_and!; eauto; try constructor. by rewrite Hd, replicate_length.
  - destruct (pool_alloc_spec dflt _ _ _ Hp Hpos) as (x' & p1' & fr' & Hal' & Hp1 & Hx & Hk & Hl & Hi').
    rewrite Hal in Hal'. injection Hal' as <- <-.
    assert (x < length (p_data p1))%nat by (eapply (pinv_bound _ _ _ x Hp1); apply elem_of_app; right; left).
    eapply live_rel_set; [exact Hp1|done|exact Hset| |congruence|].
    + by rewrite fmap_app.
    + apply Forall_app. split; [|repeat constructor; by left]. rewrite list.Forall_forall in *. intros [y v'] Hy. right. simpl. split.
      * intros ->. apply Hx. apply elem_of_list_fmap. by exists (x, v').
      * apply Hk. by apply (Hf (y, v')).
  - rewrite fmap_app, fmap_cons in Hp. assert (x < length (p_data p))%nat by (eapply (pinv_bound _ _ _ x Hp); apply elem_of_app; right; left).
    pose proof (pinv_NoDup _ _ _ Hp) as Hnd. apply NoDup_app in Hnd as (_ & _ & Hnd). pose proof (NoDup_mid _ _ _ Hnd) as (H1 & H2 & _).
    eapply live_rel_set; [exact Hp|done|exact Hset| |done|].
    + by rewrite fmap_app, fmap_cons.
    + apply Forall_app in Hf as [Hf1 Hf2]. apply list.Forall_cons in Hf2 as [_ Hf2]. apply Forall_app. split; [|constructor; [by left|]];
      rewrite list.Forall_forall in *; intros [y v'] Hy; right; simpl; (split; [|first [by apply (Hf1 (y, v'))|by apply (Hf2 (y, v'))]]); intros ->.
      * apply H1. apply elem_of_list_fmap. by exists (x, v').
      * apply H2. apply elem_of_list_fmap. by exists (x, v').
  - rewrite fmap_app, fmap_cons in Hp. destruct (pool_free_spec _ _ _ _ _ Hp) as (p' & Hfree' & Hp' & Hd & Hi').
    simpl in Hfree'. rewrite Hfree in Hfree'. injection Hfree' as <-. split_and!.
    + rewrite fmap_app. eauto.
    + rewrite Hd. apply Forall_app in Hf as [Hf1 Hf2]. apply list.Forall_cons in Hf2 as [_ Hf2]. by apply Forall_app.
    + by rewrite Hd.
    + congruence.
  - destruct (pool_grow_spec dflt _ _ _ Hp) as (p' & Hg' & Hp' & Hd & Hi'). rewrite Hg in Hg'. injection Hg' as <-. split_and!; eauto.
    + eapply list.Forall_impl; [exact Hf|]. intros [y v] Hy. rewrite Hd. by apply lookup_app_l_Some.
    + rewrite Hd, app_length. lia.
    + congruence.
  - unfold pool_reset in Hr. rewrite Hi in Hr. destruct (pool_fresh_spec dflt n) as (p' & Hnew' & Hp' & Hd & Hi'). rewrite Hr in Hnew'. injection Hnew' as <-.
    split_and!; eauto; try constructor. by rewrite Hd, replicate_length.
Qed.
End proofs.

(** C16: after any history of calls, live slots are pairwise distinct, hold what was last stored
    in them, and iteration yields exactly their values in allocation order; a further allocation
    succeeds and returns a slot not in use. *)
Theorem C16_pool_slots_never_alias {T} (dflt : T) (n : nat) (p : pool T) (live : list (nat * T)) :
  (0 < n)%nat -> pool_history dflt n p live ->
  NoDup live.*1 /\
  (forall x v, (x, v) ∈ live -> pool_get p x = Some v) /\
  pool_elements p = Some live.*2 /\
  (exists x p', pool_alloc dflt p = Some (x, p') /\ x ∉ live.*1 /\ (forall y v, (y, v) ∈ live -> pool_get p' y = Some v) /\
     forall v, exists p2, pool_set p' x v = Some p2) /\
  (forall x v, (x, v) ∈ live -> (exists p', pool_free p x = Some p') /\ forall w, exists p2, pool_set p x w = Some p2) /\
  (exists p', pool_grow dflt p = Some p') /\ (exists p', pool_reset dflt p = Some p').
Proof.
  intros Hn Hh. destruct (history_rel dflt n Hn p live Hh) as ((fr & Hp) & Hf & Hpos & Hi). rewrite list.Forall_forall in Hf.
  split_and!.
  - apply pinv_NoDup in Hp. by apply NoDup_app in Hp as (_ & _ & ?).
  - intros x v Hx. by apply (Hf (x, v)).
  - rewrite (pool_elements_spec _ _ _ Hp). apply mapM_Some. rewrite Forall2_fmap. apply Forall_Forall2_diag. by apply list.Forall_forall.
  - destruct (pool_alloc_spec dflt _ _ _ Hp Hpos) as (x & p' & fr' & Hal & Hp1 & Hx & Hk & Hl & Hi'). exists x, p'. split_and!; auto.
    + intros y v Hy. apply Hk. by apply (Hf (y, v)).
    + intros v. destruct (pool_set_spec _ _ _ x v Hp1) as (p2 & ? & _); [|eauto].
      eapply (pinv_bound _ _ _ x Hp1). apply elem_of_app; right; left.
  - intros x v Hx. assert (x ∈ live.*1) as Hx1 by (apply elem_of_list_fmap; by exists (x, v)). split.
    + apply elem_of_list_split in Hx1 as (l1 & l2 & Hl). rewrite Hl in Hp. destruct (pool_free_spec _ _ _ _ _ Hp) as (p' & ? & _). eauto.
    + intros w. destruct (pool_set_spec _ _ _ x w Hp) as (p2 & ? & _); [|eauto]. by eapply pinv_bound.
  - destruct (pool_grow_spec dflt _ _ _ Hp) as (p' & ? & _). eauto.
  - unfold pool_reset. destruct (pool_fresh_spec dflt (p_init p)) as (p' & ? & _). eauto.
Qed.
Print Assumptions C16_pool_slots_never_alias.
Example C16_nonvacuous : (* allocate twice from a pool of size 1 (it grows), free the first, allocate again *)
  (p0 ← pool_new 0 1; '(x, p1) ← pool_alloc 0 p0; p1 ← pool_set p1 x 11; '(y, p2) ← pool_alloc 0 p1; p2 ← pool_set p2 y 22;
   p3 ← pool_free p2 x; '(z, p4) ← pool_alloc 0 p3; p4 ← pool_set p4 z 33; l ← pool_elements p4; Some (x, y, z, l))%nat
  = Some (0, 1, 0, [22; 33])%nat.
Proof. vm_compute. reflexivity. Qed.

(** Outside the property's quantifier: a pool of initial size 0 cannot grow. *)
Theorem C16_empty_pool_refuted : exists p, pool_new 0%nat 0 = Some p /\ pool_alloc 0%nat p = None.
Proof. eexists. split; vm_compute; reflexivity. Qed.
Print Assumptions C16_empty_pool_refuted.
