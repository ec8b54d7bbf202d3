(** Property theorems C01, C04, C05, C06, C07 (in-memory arrays). *)
From stdpp Require Import base list list_numbers numbers option.
From Verif Require Import IndexSpec LoopsModel LoopsProofs NDArrayModel NDArrayProofs NDArrayOps NDArrayOps2 NDArrayOps3.
From Coq Require Import Lia.

(** The arrays a client can have: built by the constructor and changed by any
    sequence of public operations that completed normally. *)
Inductive api_array {A} (vd : nat) : ndarr A -> Prop :=
  | api_new junk sh : sh <> [] -> api_array vd (anew vd junk sh)
  | api_resize junk sh a a' : sh <> [] -> api_array vd a -> aresize vd junk sh a = Some a' -> api_array vd a'
  | api_write a a' x v : api_array vd a -> awrite vd a x v = Some a' -> api_array vd a'
  | api_append junk a b a' : api_array vd a -> api_array vd b -> aappend0 vd junk a b = Some a' -> api_array vd a'
  | api_copy junk a a' : api_array vd a -> acopy vd junk a = Some a' -> api_array vd a'
  | api_assign junk a b a' : api_array vd a -> api_array vd b -> acopy_assign vd junk a b = Some a' -> api_array vd a'
  | api_swap junk i j a b b' : api_array vd a -> api_array vd b ->
      (i < length (a_shape a))%nat -> (j < length (a_shape a))%nat ->
      aswap_axes vd junk i j a b = Some b' -> api_array vd b'
  | api_fill a a' s e v : api_array vd a -> Forall2 lt s e -> Forall2 le e (a_shape a) ->
      afill vd a s e v = Some a' -> api_array vd a'
  | api_fill_from a b a' is ie os : api_array vd a -> api_array vd b ->
      Forall2 lt is ie -> Forall2 le ie (a_shape b) -> length os = length is ->
      Forall2 le (vadd os (vsub ie is)) (a_shape a) ->
      afill_from vd a b is ie os = Some a' -> api_array vd a'.

Lemma acopy_wf {A} vd (junk : A) other :
  wf_owned vd other -> exists a', acopy vd junk other = Some a' /\ wf_owned vd a' /\
    a_shape a' = a_shape other /\ forall x, in_shape (a_shape other) x -> aread vd a' x = aread vd other x.
Proof. intros H. unfold acopy. apply acopy_assign_spec; done. Qed.

Lemma api_array_wf {A} vd (a : ndarr A) : api_array vd a -> wf_owned vd a.
Proof.
  induction 1 as [junk sh Hne | junk sh a a' Hne H IH Hr | a a' x v H IH Hw | junk a b a' H IH H' IH' Hap
    | junk a a' H IH Hc | junk a b a' H IH H' IH' Hc | junk i j a b b' H IH H' IH' Hi Hj Hsw
    | a a' s e v H IH H1 H2 Hf | a b a' is ie os H IH H' IH' H1 H2 H3 H4 Hf].
  - by apply anew_wf.
  - by eapply aresize_wf.
  - unfold awrite in Hw. destruct (has_index (a_shape a) x && _) eqn:Hix; [|done].
    apply andb_true_iff in Hix as [Hix Hlv%Nat.eqb_eq]. apply has_index_true in Hix.
    destruct (awrite_spec vd a x v IH Hix Hlv) as (a1 & Ha1 & Hwf1 & _).
    unfold awrite in Ha1. apply has_index_true in Hix. rewrite Hix in Ha1. rewrite Hlv, Nat.eqb_refl in Ha1. cbn [andb] in Ha1. congruence.
  - assert (shape_allows_concat (a_shape a) (a_shape b) 0 = true) as Hs.
    { unfold aappend0 in Hap. destruct (a_owns a && _) eqn:Heq; [|done]. by apply andb_true_iff in Heq as [_ ?]. }
    apply shape_allows_concat_true in Hs as [Hl Ht].
    destruct (a_shape a) as [|n1 sh] eqn:Hsa; [by destruct IH|]. destruct (a_shape b) as [|n2 sh'] eqn:Hsb; [done|].
    simpl in Ht. subst sh'.
    destruct (aappend0_spec vd junk a b n1 n2 sh) as (a1 & Ha1 & Hwf1 & _); auto. congruence.
  - destruct (acopy_wf vd junk a IH) as (a1 & Ha1 & Hwf1 & _). congruence.
  - destruct (acopy_assign_spec vd junk a b) as (a1 & Ha1 & Hwf1 & _); [apply IH|done|]. congruence.
  - destruct (aswap_axes_spec vd junk i j a b) as (a1 & Ha1 & Hwf1 & _); auto; [by apply wf_owned_wf|apply IH'|]. congruence.
  - destruct (afill_spec vd a s e v) as (a1 & Ha1 & Hwf1 & _); auto. congruence.
  - destruct (afill_from_spec vd a b is ie os) as (a1 & Ha1 & Hwf1 & _); auto; [by apply wf_owned_wf|]. congruence.
Qed.

(** * C01 *)
(** The run of storage positions of index [x]. *)
Definition run_of {A} (vd : nat) (a : ndarr A) (x : list nat) (p : nat) : Prop :=
  (flat_ind (a_strides a) (a_off a) x <= p < flat_ind (a_strides a) (a_off a) x + vd)%nat.

Theorem C01_addressing_bijection {A} vd (a : ndarr A) :
  api_array vd a ->
  (* inside the storage *)
  (forall x p, in_shape (a_shape a) x -> run_of vd a x p -> (p < length (a_data a))%nat) /\
  (* disjoint *)
  (forall x y p, in_shape (a_shape a) x -> in_shape (a_shape a) y -> run_of vd a x p -> run_of vd a y p -> x = y) /\
  (* together they fill it *)
  (forall p, (p < length (a_data a))%nat -> exists x, in_shape (a_shape a) x /\ run_of vd a x p).
Proof.
  intros Hapi. pose proof (api_array_wf _ _ Hapi) as Hwf. pose proof Hwf as (Hne & Hst & Hoff & Hlen & _). unfold run_of.
  assert (length (a_data a) = volume (a_shape a) * vd)%nat as Lv.
  { rewrite Hlen. unfold compute_volume. by rewrite number_elements_volume. }
  split_and!.
  - intros x p Hx Hp. pose proof (wf_owned_wf _ _ Hwf) as [_ Hb]. specialize (Hb x Hx). lia.
  - intros x y p Hx Hy. rewrite !(wf_owned_flat vd) by (auto using in_shape_length). intros H1 H2.
    apply (rank_inj (a_shape a)); auto.
    edestruct (div_unique_block (rank (a_shape a) x) (rank (a_shape a) y)
                (p - rank (a_shape a) x * vd) (p - rank (a_shape a) y * vd) vd) as [? _]; [..|done]; lia.
  - intros p Hp. assert (0 < vd)%nat by (destruct vd; lia).
    assert (p / vd < volume (a_shape a))%nat as Hk by (apply Nat.div_lt_upper_bound; lia).
    destruct (unrank_spec (a_shape a) (p / vd) Hk) as [Hin Hr].
    exists (unrank (a_shape a) (p / vd)). split; [done|].
    rewrite !(wf_owned_flat vd) by (auto using in_shape_length). rewrite Hr.
    pose proof (Nat.div_mod p vd). pose proof (Nat.mod_upper_bound p vd). lia.
Qed.
Print Assumptions C01_addressing_bijection.

(** Every in-range read succeeds, an out-of-range one never does, and a write changes exactly its element. *)
Theorem C01_read_write {A} vd (a : ndarr A) :
  api_array vd a ->
  (forall x, (exists v, aread vd a x = Some v /\ length v = vd) <-> in_shape (a_shape a) x) /\
  (forall x v, in_shape (a_shape a) x -> length v = vd ->
     exists a', awrite vd a x v = Some a' /\ a_shape a' = a_shape a /\ aread vd a' x = Some v /\
       forall y, in_shape (a_shape a) y -> y <> x -> aread vd a' y = aread vd a y).
Proof.
  intros Hapi. pose proof (api_array_wf _ _ Hapi) as Hwf. split.
  - intros x. split.
    + intros (v & Hv & _). unfold aread in Hv. destruct (has_index _ _) eqn:Hh; [|done]. by apply has_index_true.
    + intros Hx. apply aread_Some; [by apply wf_owned_wf|done].
  - intros x v Hx Hv. destruct (awrite_spec vd a x v) as (a' & ? & ? & ? & ? & ?); auto. exists a'. auto.
Qed.
Print Assumptions C01_read_write.

(** Concrete instance: a 2 x 3 array of 2-component vectors. *)
Example C01_nonvacuous :
  exists a', awrite 2 (anew 2 0%nat [2; 3]%nat) [1; 2]%nat [7; 8]%nat = Some a' /\ api_array 2 a' /\
    aread 2 a' [1; 2]%nat = Some [7; 8]%nat /\ aread 2 a' [1; 3]%nat = None.
Proof.
  eexists. split; [reflexivity|]. split; [|split; reflexivity].
  apply (api_write 2 (anew 2 0%nat [2; 3]%nat) _ [1; 2]%nat [7; 8]%nat); [by apply api_new|]. reflexivity.
Qed.

(** A view reads the parent's elements at shifted indices. *)
Theorem C01_view_reads_parent {A} vd (a : ndarr A) s e x :
  api_array vd a -> Forall2 le s e -> Forall2 le e (a_shape a) ->
  in_shape (vsub e s) x ->
  a_shape (aview a s e) = vsub e s /\ in_shape (a_shape a) (vadd s x) /\
  aread vd (aview a s e) x = aread vd a (vadd s x).
Proof.
  intros Hapi Hse Hes Hx. split; [done|]. apply aview_read; auto. by apply wf_owned_wf, api_array_wf.
Qed.
Print Assumptions C01_view_reads_parent.

(** Looping over all elements gives them in row-major order: the [k]-th visited one
    belongs to the [k]-th index of the element loop. *)
Theorem C02_array_element_loop_row_major {A} vd (a : ndarr A) fuel :
  api_array vd a -> (loop_fuel (a_shape a) <= fuel)%nat ->
  exists l idx, aelements vd a = Some l /\ elem_loop fuel (replicate (length (a_shape a)) 0%nat) (a_shape a) = Some idx /\
    length l = length idx /\ forall k x, idx !! k = Some x -> l !! k = aread vd a x.
Proof.
  intros Hapi Hf. pose proof (api_array_wf _ _ Hapi) as Hwf.
  destruct (aelements_spec vd a) as (l & Hl & Hlen & Hrd); [by apply wf_owned_wf|].
  exists l, (box_elems (replicate (length (a_shape a)) 0%nat) (a_shape a)). split_and!; auto.
  - apply elem_loop_spec; [by rewrite replicate_length|done].
  - by rewrite box_elems_length_shape.
  - intros k x Hk. assert (in_shape (a_shape a) x) as Hx by (by apply elem_of_box_elems, elem_of_list_lookup_2 with k).
    rewrite <- Hrd by done. f_equal.
    eapply NoDup_lookup; [apply (box_elems_NoDup (replicate (length (a_shape a)) 0%nat) (a_shape a))|exact Hk|].
    by apply box_elems_rank.
Qed.
Print Assumptions C02_array_element_loop_row_major.

(** * C04 *)
Theorem C04_append_is_concatenation {A} vd (junk : A) a b n1 n2 sh :
  api_array vd a -> api_array vd b -> a_shape a = n1 :: sh -> a_shape b = n2 :: sh ->
  exists a', aappend vd junk a b 0 = AppOk a' /\ api_array vd a' /\ a_shape a' = (n1 + n2)%nat :: sh /\
    forall i x, in_shape sh x ->
      ((i < n1)%nat -> aread vd a' (i :: x) = aread vd a (i :: x)) /\
      ((n1 <= i < n1 + n2)%nat -> aread vd a' (i :: x) = aread vd b ((i - n1)%nat :: x)).
Proof.
  intros Ha Hb Hs1 Hs2.
  destruct (aappend0_spec vd junk a b n1 n2 sh) as (a' & Ha' & Hwf & Hsh & Hr); auto using api_array_wf.
  exists a'. unfold aappend. simpl. rewrite Ha'. split_and!; auto. eapply api_append; [exact Ha|exact Hb|exact Ha'].
Qed.
Print Assumptions C04_append_is_concatenation.

(** Slices whose other extents differ do not produce an array; axes other than 0
    throw (not implemented) before anything is changed. *)
Theorem C04_mismatch_rejected {A} vd (junk : A) a b :
  tail (a_shape a) <> tail (a_shape b) \/ length (a_shape a) <> length (a_shape b) ->
  forall axis a', aappend vd junk a b axis <> AppOk a'.
Proof.
  intros Hne axis a'. unfold aappend. destruct (axis =? 0)%nat.
  - unfold aappend0. destruct (shape_allows_concat (a_shape a) (a_shape b) 0) eqn:Hs.
    + apply shape_allows_concat_true in Hs. tauto.
    + rewrite andb_false_r. done.
  - destruct (_ && _); done.
Qed.
Print Assumptions C04_mismatch_rejected.
Theorem C04_other_axes_throw {A} vd (junk : A) a b axis :
  api_array vd a -> (0 < axis < length (a_shape a))%nat -> aappend vd junk a b axis = AppNotImplemented.
Proof.
  intros Ha Hax. unfold aappend. destruct (Nat.eqb_spec axis 0); [lia|].
  destruct (Nat.ltb_spec axis (length (a_shape a))); [|lia]. pose proof (api_array_wf _ _ Ha) as (_ & _ & _ & _ & ->). done.
Qed.
Print Assumptions C04_other_axes_throw.

(** Any sequence of appends: the result is the concatenation of all pieces. *)
Fixpoint append_all {A} (vd : nat) (junk : A) (a : ndarr A) (bs : list (ndarr A)) : option (ndarr A) :=
  match bs with
  | [] => Some a
  | b :: bs' => match aappend vd junk a b 0 with AppOk a' => append_all vd junk a' bs' | _ => None end
  end.
(** Row [i] of the concatenation of a list of arrays. *)
Fixpoint concat_row {A} (arrs : list (ndarr A)) (i : nat) : option (ndarr A * nat) :=
  match arrs with
  | [] => None
  | a :: arrs' => let n := default 0%nat (head (a_shape a)) in
      if (i <? n)%nat then Some (a, i) else concat_row arrs' (i - n)
  end.
Theorem C04_append_sequence {A} vd (junk : A) (a : ndarr A) bs sh :
  api_array vd a -> tail (a_shape a) = sh ->
  Forall (fun b => api_array vd b /\ tail (a_shape b) = sh) bs ->
  exists a', append_all vd junk a bs = Some a' /\ api_array vd a' /\
    a_shape a' = sum_list_with (fun b => default 0%nat (head (a_shape b))) (a :: bs) :: sh /\
    forall i x, in_shape sh x -> (i < sum_list_with (fun b => default 0%nat (head (a_shape b))) (a :: bs))%nat ->
      exists b k, concat_row (a :: bs) i = Some (b, k) /\ aread vd a' (i :: x) = aread vd b (k :: x).
Proof.
  intros Ha Hsh Hbs. revert a Ha Hsh. induction Hbs as [|b bs [Hb Hbsh] Hbs IH]; intros a Ha Hsh.
  - exists a. destruct (a_shape a) as [|n1 sh1] eqn:Hs1; [by pose proof (api_array_wf _ _ Ha) as [? _]|]. simpl in Hsh. subst sh1.
    cbn [append_all sum_list_with]. rewrite Hs1. simpl. rewrite Nat.add_0_r. split_and!; auto.
    intros i x Hx Hi. cbn [concat_row]. rewrite Hs1. simpl. exists a, i. destruct (Nat.ltb_spec i n1); [done|lia].
  - destruct (a_shape a) as [|n1 sh1] eqn:Hs1; [by pose proof (api_array_wf _ _ Ha) as [? _]|]. simpl in Hsh. subst sh1.
    destruct (a_shape b) as [|n2 sh2] eqn:Hs2; [by pose proof (api_array_wf _ _ Hb) as [? _]|]. simpl in Hbsh. subst sh2.
    destruct (C04_append_is_concatenation vd junk a b n1 n2 sh Ha Hb Hs1 Hs2) as (a1 & Hap & Ha1 & Hsh1 & Hr1).
    cbn [append_all]. rewrite Hap.
    destruct (IH a1 Ha1) as (a' & Hall & Ha' & Hsh' & Hr'); [by rewrite Hsh1|].
    exists a'. split_and!; auto.
    { rewrite Hsh'. cbn [sum_list_with]. rewrite Hsh1, Hs1, Hs2. simpl. f_equal. lia. }
    intros i x Hx Hi. cbn [sum_list_with] in Hi, Hr'. rewrite Hs1, Hs2 in Hi. rewrite Hsh1 in Hr'. simpl in Hi, Hr'.
    destruct (Hr' i x Hx) as (c & k & Hck & Hck'); [lia|]. rewrite Hsh1 in Hck. simpl in Hck.
    cbn [concat_row]. rewrite Hs1, Hs2. simpl. rewrite Hck'.
    destruct (Nat.ltb_spec i (n1 + n2)) as [Hlt|Hge].
    + injection Hck as <- <-. destruct (Nat.ltb_spec i n1) as [Hlt1|Hge1].
      * exists a, i. split; [done|]. by apply Hr1.
      * destruct (Nat.ltb_spec (i - n1) n2); [|lia]. exists b, (i - n1)%nat. split; [done|]. by apply Hr1.
    + destruct (Nat.ltb_spec i n1) as [Hlt1|Hge1]; [lia|].
      destruct (Nat.ltb_spec (i - n1) n2); [lia|]. exists c, k. split; [|done]. rewrite <- Hck. f_equal. lia.
Qed.
Print Assumptions C04_append_sequence.
Example C04_nonvacuous :
  (a ← awrite 1 (anew 1 0%nat [2; 2]%nat) [1; 1]%nat [5]%nat;
   b ← awrite 1 (anew 1 0%nat [1; 2]%nat) [0; 1]%nat [6]%nat;
   c ← aappend0 1 9%nat a b; r ← aread 1 c [1; 1]%nat; r' ← aread 1 c [2; 1]%nat;
   Some (a_shape c, r, r')) = Some ([3; 2], [5], [6])%nat.
Proof. vm_compute. reflexivity. Qed.

(** * C05 *)
Theorem C05_swap_axes {A} vd (junk : A) i j (a dest : ndarr A) :
  api_array vd a -> api_array vd dest -> (i < length (a_shape a))%nat -> (j < length (a_shape a))%nat ->
  exists d', aswap_axes vd junk i j a dest = Some d' /\ api_array vd d' /\
    length (a_shape d') = length (a_shape a) /\
    (* the extents along i and j are exchanged, the others unchanged *)
    a_shape d' !! i = a_shape a !! j /\ a_shape d' !! j = a_shape a !! i /\
    (forall k, k <> i -> k <> j -> a_shape d' !! k = a_shape a !! k) /\
    (* and so are the coordinates of every element *)
    forall x y, in_shape (a_shape d') x -> length y = length x ->
      y !! i = x !! j -> y !! j = x !! i -> (forall k, k <> i -> k <> j -> y !! k = x !! k) ->
      in_shape (a_shape a) y /\ aread vd d' x = aread vd a y.
Proof.
  intros Ha Hd Hi Hj.
  destruct (aswap_axes_spec vd junk i j a dest) as (d' & Hsw & Hwf & Hsh & Hr); auto.
  { by apply wf_owned_wf, api_array_wf. }
  { by apply (api_array_wf vd). }
  exists d'. assert (api_array vd d') as Hd' by (by eapply (api_swap vd junk i j a dest)).
  rewrite Hsh in *. split_and!; auto.
  - apply vswap_length.
  - rewrite vswap_lookup by done. by rewrite decide_True.
  - rewrite vswap_lookup by done. case_decide; [by subst|]. by rewrite decide_True.
  - intros k Hk1 Hk2. rewrite vswap_lookup by done. by rewrite !decide_False.
  - intros x y Hx Hl H1 H2 H3. pose proof (in_shape_length _ _ Hx) as Hlx. rewrite vswap_length in Hlx.
    assert (y = vswap i j x) as ->.
    { apply list_eq. intros k. rewrite vswap_lookup by lia. repeat case_decide; subst; auto. }
    split; [by apply in_shape_vswap_inv|]. by apply Hr.
Qed.
Print Assumptions C05_swap_axes.

Theorem C05_swap_twice_restores {A} vd (junk : A) i j (a dest dest2 d1 d2 : ndarr A) :
  api_array vd a -> api_array vd dest -> api_array vd dest2 ->
  (i < length (a_shape a))%nat -> (j < length (a_shape a))%nat ->
  aswap_axes vd junk i j a dest = Some d1 -> aswap_axes vd junk i j d1 dest2 = Some d2 ->
  a_shape d2 = a_shape a /\ forall x, in_shape (a_shape a) x -> aread vd d2 x = aread vd a x.
Proof.
  intros Ha Hd Hd2 Hi Hj H1 H2.
  destruct (aswap_axes_spec vd junk i j a dest) as (d' & Hsw & Hwf & Hsh & Hr); auto.
  { by apply wf_owned_wf, api_array_wf. }
  { by apply (api_array_wf vd). }
  rewrite H1 in Hsw. injection Hsw as <-.
  destruct (aswap_axes_spec vd junk i j d1 dest2) as (d'' & Hsw & Hwf2 & Hsh2 & Hr2); auto.
  { by apply wf_owned_wf. }
  { by apply (api_array_wf vd). }
  { by rewrite Hsh, vswap_length. }
  { by rewrite Hsh, vswap_length. }
  rewrite H2 in Hsw. injection Hsw as <-.
  assert (a_shape d2 = a_shape a) as Heq by (by rewrite Hsh2, Hsh, vswap_involutive).
  split; [done|]. intros x Hx. rewrite Hr2; [|by rewrite <- Hsh2, Heq].
  pose proof (in_shape_length _ _ Hx). rewrite Hr.
  - by rewrite vswap_involutive by lia.
  - apply in_shape_vswap; done.
Qed.
Print Assumptions C05_swap_twice_restores.
Example C05_nonvacuous :
  (a ← awrite 1 (anew 1 0%nat [2; 1; 3]%nat) [1; 0; 2]%nat [5]%nat;
   d ← aswap_axes 1 9%nat 0 2 a (anew 1 0%nat [1]%nat);
   r ← aread 1 d [2; 0; 1]%nat; Some (a_shape d, r)) = Some ([3; 1; 2], [5])%nat.
Proof. vm_compute. reflexivity. Qed.

(** * C06 *)
(** The target block is described by the displacement from the source range. *)
Theorem C06_fill_from_changes_exactly_block {A} vd (a b : ndarr A) is ie os :
  api_array vd a -> api_array vd b ->
  Forall2 lt is ie -> Forall2 le ie (a_shape b) ->
  length os = length is -> Forall2 le (vadd os (vsub ie is)) (a_shape a) ->
  exists a', afill_from vd a b is ie os = Some a' /\ api_array vd a' /\ a_shape a' = a_shape a /\
    (forall x, in_box is ie x -> aread vd a' (vadd os (vsub x is)) = aread vd b x) /\
    (forall y, in_shape (a_shape a) y -> ~ in_box os (vadd os (vsub ie is)) y -> aread vd a' y = aread vd a y).
Proof.
  intros Ha Hb H1 H2 H3 H4.
  destruct (afill_from_spec vd a b is ie os) as (a' & Hf & Hwf & Hsh & Hr); auto using api_array_wf.
  { by apply wf_owned_wf, api_array_wf. }
  exists a'. split_and!; auto.
  - by eapply (api_fill_from vd a b).
  - intros x Hx. pose proof (in_box_length _ _ _ Hx) as [L1 L2].
    assert (in_box os (vadd os (vsub ie is)) (shift_ind is os x)) as Hin by (apply in_box_shift_prefix; auto).
    fold (shift_ind is os x). rewrite Hr.
    + rewrite decide_True by done. f_equal. by eapply shift_shift.
    + apply in_shape_forall2. apply in_box_forall2 in Hin as [_ Hin]. by eapply Forall2_lt_le_trans.
  - intros y Hy Hno. rewrite Hr by done. by rewrite decide_False.
Qed.
Print Assumptions C06_fill_from_changes_exactly_block.

(** The same for a source that is a view onto part of an array. *)
Theorem C06_fill_from_view {A} vd (a b : ndarr A) s e is ie os :
  api_array vd a -> api_array vd b -> Forall2 le s e -> Forall2 le e (a_shape b) ->
  Forall2 lt is ie -> Forall2 le ie (vsub e s) ->
  length os = length is -> Forall2 le (vadd os (vsub ie is)) (a_shape a) ->
  exists a', afill_from vd a (aview b s e) is ie os = Some a' /\ a_shape a' = a_shape a /\
    (forall x, in_box is ie x -> aread vd a' (vadd os (vsub x is)) = aread vd b (vadd s x)) /\
    (forall y, in_shape (a_shape a) y -> ~ in_box os (vadd os (vsub ie is)) y -> aread vd a' y = aread vd a y).
Proof.
  intros Ha Hb Hse Hes H1 H2 H3 H4.
  assert (wf vd b) as Hwb by (by apply wf_owned_wf, api_array_wf).
  destruct (afill_from_spec vd a (aview b s e) is ie os) as (a' & Hf & Hwf & Hsh & Hr); auto using api_array_wf.
  { by apply aview_wf. }
  exists a'. split_and!; auto.
  - intros x Hx. pose proof (in_box_length _ _ _ Hx) as [L1 L2].
    assert (in_box os (vadd os (vsub ie is)) (shift_ind is os x)) as Hin by (apply in_box_shift_prefix; auto).
    fold (shift_ind is os x). rewrite Hr.
    + rewrite decide_True by done.
      rewrite (shift_shift is ie os x H3 Hx).
      apply aview_read; auto. simpl. apply in_shape_forall2. apply in_box_forall2 in Hx as [_ Hx]. by eapply Forall2_lt_le_trans.
    + apply in_shape_forall2. apply in_box_forall2 in Hin as [_ Hin]. by eapply Forall2_lt_le_trans.
  - intros y Hy Hno. rewrite Hr by done. by rewrite decide_False.
Qed.
Print Assumptions C06_fill_from_view.

(** Filling a region with one value. *)
Theorem C06_fill_value {A} vd (a : ndarr A) s e v :
  api_array vd a -> Forall2 lt s e -> Forall2 le e (a_shape a) ->
  exists a', afill vd a s e v = Some a' /\ api_array vd a' /\ a_shape a' = a_shape a /\
    (forall y, in_box s e y -> aread vd a' y = Some (replicate vd v)) /\
    (forall y, in_shape (a_shape a) y -> ~ in_box s e y -> aread vd a' y = aread vd a y).
Proof.
  intros Ha H1 H2. destruct (afill_spec vd a s e v) as (a' & Hf & Hwf & Hsh & Hr); auto using api_array_wf.
  exists a'. split_and!; auto.
  - by eapply (api_fill vd a).
  - intros y Hy. rewrite Hr; [by rewrite decide_True|]. apply in_shape_forall2. apply in_box_forall2 in Hy as [_ Hy].
    by eapply Forall2_lt_le_trans.
  - intros y Hy Hno. rewrite Hr by done. by rewrite decide_False.
Qed.
Print Assumptions C06_fill_value.

(** Copying a column into the innermost axis. *)
Theorem C06_fill_column {A} vd (a b : ndarr A) pos o n psh s :
  api_array vd a -> api_array vd b -> a_shape a = psh ++ [s] -> a_shape b = [n] ->
  (0 < n)%nat -> in_shape psh pos -> (o + n <= s)%nat ->
  exists a', afill_col vd a b (pos ++ [o]) = Some a' /\ a_shape a' = a_shape a /\
    (forall k, (k < n)%nat -> aread vd a' (pos ++ [(o + k)%nat]) = aread vd b [k]) /\
    (forall q y, in_shape psh q -> (y < s)%nat -> ~ (q = pos /\ (o <= y < o + n)%nat) ->
       aread vd a' (q ++ [y]) = aread vd a (q ++ [y])).
Proof.
  intros Ha Hb H1 H2 Hn Hpos Hle.
  destruct (afill_col_spec vd a b pos o n psh s) as (a' & Hf & Hwf & Hsh & Hr); auto using api_array_wf.
  exists a'. split_and!; auto.
  - intros k Hk. rewrite Hr by (auto; lia). rewrite decide_True by (split; [done|lia]). do 2 f_equal. lia.
  - intros q y Hq Hy Hno. rewrite Hr by done. by rewrite decide_False.
Qed.
Print Assumptions C06_fill_column.
Example C06_nonvacuous :
  (b ← awrite 1 (anew 1 0%nat [2; 3]%nat) [1; 2]%nat [5]%nat;
   c ← afill_from 1 (anew 1 7%nat [4; 4]%nat) b [0; 1]%nat [2; 3]%nat [2; 2]%nat;
   r1 ← aread 1 c [3; 3]%nat; r2 ← aread 1 c [2; 2]%nat; r3 ← aread 1 c [1; 2]%nat;
   Some (r1, r2, r3)) = Some ([5], [0], [7])%nat.
Proof. vm_compute. reflexivity. Qed.

(** * C07 *)
Theorem C07_copy_of_array_partial {A} vd (junk : A) (a : ndarr A) :
  api_array vd a ->
  exists a', acopy vd junk a = Some a' /\ api_array vd a' /\ a_shape a' = a_shape a /\
    forall x, in_shape (a_shape a) x -> aread vd a' x = aread vd a x.
Proof.
  intros Ha. destruct (acopy_wf vd junk a) as (a' & Hc & Hwf & Hsh & Hr); auto using api_array_wf.
  exists a'. split_and!; auto. by eapply (api_copy vd junk a).
Qed.
Print Assumptions C07_copy_of_array_partial.
Theorem C07_assignment_of_array_partial {A} vd (junk : A) (this a : ndarr A) :
  api_array vd this -> api_array vd a ->
  exists a', acopy_assign vd junk this a = Some a' /\ api_array vd a' /\ a_shape a' = a_shape a /\
    forall x, in_shape (a_shape a) x -> aread vd a' x = aread vd a x.
Proof.
  intros Ht Ha. destruct (acopy_assign_spec vd junk this a) as (a' & Hc & Hwf & Hsh & Hr); auto using api_array_wf.
  { by apply (api_array_wf vd). }
  exists a'. split_and!; auto. by eapply (api_assign vd junk this a).
Qed.
Print Assumptions C07_assignment_of_array_partial.

(** For views the property is false of the code: a copy of the view of the last
    element holds the parent's first element. *)
Theorem C07_copy_of_view_refuted :
  exists (a a' : ndarr nat) s e, api_array 1 a /\ Forall2 le s e /\ Forall2 le e (a_shape a) /\
    acopy 1 0%nat (aview a s e) = Some a' /\
    exists x, in_shape (a_shape (aview a s e)) x /\ aread 1 a' x <> aread 1 (aview a s e) x.
Proof.
  destruct (awrite 1 (anew 1 0%nat [2]%nat) [1]%nat [5]%nat) as [a|] eqn:Ha; [|by vm_compute in Ha].
  exists a. assert (api_array 1 a) as Hapi.
  { eapply api_write; [apply (api_new 1 0%nat [2]%nat)|exact Ha]; done. }
  injection Ha as <-. exists (NDArr [1] [1] 0 [0] true)%nat, [1]%nat, [2]%nat.
  split; [exact Hapi|]. split; [repeat constructor|]. split; [repeat constructor|].
  split; [vm_compute; reflexivity|].
  exists [0]%nat. split; [simpl; split; [lia|done]|]. vm_compute. congruence.
Qed.
Print Assumptions C07_copy_of_view_refuted.

(** The null test (used by the chunk store) is exact. *)
Theorem C28_is_all_null_exact {A} vd (isz : A -> bool) (a : ndarr A) :
  api_array vd a -> exists b, ais_all_null vd isz a = Some b /\
    (b = true <-> forall x v, in_shape (a_shape a) x -> aread vd a x = Some v -> Forall (fun z => isz z = true) v).
Proof. intros Ha. by apply ais_all_null_spec, wf_owned_wf, api_array_wf. Qed.
Print Assumptions C28_is_all_null_exact.
Example C28_is_all_null_nonvacuous :
  ais_all_null 1 (fun n => n =? 0)%nat (anew 1 0%nat [2; 2]%nat) = Some true /\
  ais_all_null 1 (fun n => n =? 0)%nat (anew 1 1%nat [2; 2]%nat) = Some false.
Proof. split; reflexivity. Qed.
