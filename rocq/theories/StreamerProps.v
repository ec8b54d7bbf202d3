(** Property theorems C12, C13. *)
From stdpp Require Import base list list_numbers numbers option.
From Verif Require Import IndexSpec LoopsModel LoopsProofs NDArrayModel NDArrayProofs NDArrayOps NDArrayProps
  CodecModel NullSupModel NullSupProps StreamerModel StreamerProofs StreamerProofs2.
From Coq Require Import NArith Lia.

(** * Specification vocabulary *)
(** All scalars of the array are 32-bit patterns. *)
Definition float_array (vd : nat) (a : ndarr N) : Prop := api_array vd a /\ Forall (fun b => b < 2 ^ 32)%N (a_data a).
(** Serialisation chunk shapes accepted by the writer: positive size_t extents, not all of them "infinite" (2^64-1). *)
Definition acceptable_chunk (dims : nat) (cs : list nat) : Prop :=
  length cs = dims /\ Forall (fun c => (0 < c)%nat /\ (N.of_nat c < 2 ^ 64)%N) cs /\ Exists (fun c => N.of_nat c <> 2 ^ 64 - 1)%N cs.
(** Array sizes for which the element counts fit in the types used (size_t; uint32_t for runs of nulls inside one chunk). *)
Definition countable (vd : nat) (m : smode) (cs sh : list nat) : Prop :=
  Forall (fun s => N.of_nat s < 2 ^ 64)%N sh /\ (N.of_nat (volume sh * (vd + 1)) < 2 ^ 64)%N /\
  (m = NullSuppressed -> N.of_nat (volume (zip_with Nat.min cs sh)) < 2 ^ 32)%N.
(** What comes back for the stored vector [v]. *)
Definition comes_back (m : smode) (v v' : list N) : Prop :=
  v' = v \/ (m = NullSuppressed /\ Forall (fun b => b = 0 \/ b = 2 ^ 31)%N v /\ v' = replicate (length v) 0%N).

Lemma restored_comes_back vd m v : length v = vd -> comes_back m v (restored vd m v).
Proof.
  intros Hl. unfold comes_back. destruct m; [by left|by left|]. unfold restored, canon.
  destruct (is_null v) eqn:Hn; [|by left]. right. split; [done|]. rewrite Hl. split; [|done].
  unfold is_null in Hn. rewrite forallb_forall in Hn. apply Forall_forall. intros b Hb. specialize (Hn b Hb).
  unfold is_zero_bits in Hn. apply orb_true_iff in Hn as [H|H]; apply N.eqb_eq in H; auto.
Qed.
Lemma buflen_le n vd : (nullsup_buflen n vd <= n * (vd + 1))%nat.
Proof.
  unfold nullsup_buflen, int_div_ceil. rewrite Nat.mul_add_distr_l, Nat.mul_1_r. apply Nat.add_le_mono_l.
  replace (n + 2 - 1)%nat with (n + 1)%nat by lia. destruct n as [|n]; [done|]. apply Nat.div_le_upper_bound; lia.
Qed.
Lemma countable_piece vd m cs sh axis (a : ndarr N) : m <> Automatic -> float_array vd a -> countable vd m cs (a_shape a) ->
  a_shape a = <[axis := axis_extent axis a]> sh -> piece_ok vd sh cs axis (m, a).
Proof.
  intros Hm [Ha Hw] (_ & H1 & H2) Hs. split_and!; auto using api_array_wf.
  simpl. pose proof (buflen_le (volume (a_shape a)) vd). lia.
Qed.
Lemma acceptable_facts dims cs : acceptable_chunk dims cs ->
  length cs = dims /\ Forall (fun c => 0 < c)%nat cs /\ Forall (fun c => N.of_nat c < 2 ^ 64)%N cs /\ well_formed cs = true.
Proof.
  intros (H1 & H2 & H3). split_and!; auto.
  - eapply list.Forall_impl; [exact H2|]. simpl; lia.
  - eapply list.Forall_impl; [exact H2|]. simpl; lia.
  - unfold well_formed. apply Nat.leb_le. apply list.Exists_exists in H3 as (c & Hc & Hne).
    assert (c ∈ filter (λ c, N.of_nat c ≠ INFTY) cs) as Hin by (by apply elem_of_list_filter).
    destruct (filter _ cs); [by apply elem_of_nil in Hin|]. simpl; lia.
Qed.
Lemma api_shape_nonempty {A} vd (a : ndarr A) : api_array vd a -> a_shape a <> [].
Proof. intros H. apply api_array_wf in H. by destruct H. Qed.

(** Reading a file made of pieces. *)
Lemma deserialize_pieces vd cs sh axis c0 (ps : list (smode * ndarr N)) acc target junk rest bss :
  length cs = length sh -> Forall (fun c => 0 < c)%nat cs -> Forall (fun c => N.of_nat c < 2 ^ 64)%N cs ->
  (axis < length sh)%nat -> cs !! axis = Some c0 ->
  (forall j s c, (j < axis)%nat -> sh !! j = Some s -> cs !! j = Some c -> (s <= c)%nat) ->
  Forall (piece_ok vd sh cs axis) ps -> ps <> [] ->
  (forall k p, S k < length ps -> ps !! k = Some p -> (c0 | axis_extent axis p.2))%nat ->
  Forall (fun s => N.of_nat s < 2 ^ 64)%N (<[axis := total axis ps]> sh) ->
  api_array vd target ->
  mapM (fun p => match ser_all_chunks vd p.1 p.2 cs with WOk b => Some b | _ => None end) ps = Some bss ->
  exists t', deserialize vd (length sh) junk target (enc_meta (SMeta cs (<[axis := total axis ps]> sh) acc) ++ mjoin bss ++ rest) = Some (t', rest) /\
    api_array vd t' /\ a_shape t' = <[axis := total axis ps]> sh /\
    forall k p x, ps !! k = Some p -> in_shape (a_shape p.2) x ->
      aread vd t' (bump axis (total axis (take k ps)) x) = restored vd p.1 <$> aread vd p.2 x.
Proof.
  intros Hl Hpos Hcs64 Hax Hc0 Hsm Hps Hne Hdiv H64 Htg Hbss.
  set (shT := <[axis := total axis ps]> sh) in *.
  assert (length shT = length sh) as HlT by apply insert_length.
  unfold deserialize. rewrite dec_enc_meta by done. cbn [mbind option_bind m_shape m_cs].
  assert (exists t, aresize vd junk shT target = Some t) as [t Ht].
  { unfold aresize. pose proof (api_array_wf _ _ Htg) as (_ & _ & _ & _ & ->). eauto. }
  rewrite Ht. cbn [mbind option_bind].
  assert (shT <> []) as HneT by (intros E; apply (f_equal length) in E; rewrite HlT in E; simpl in E; lia).
  assert (api_array vd t) as Hapt by (eapply api_resize; eauto).
  assert (a_shape t = shT) as Hsht. { unfold aresize in Ht. destruct (a_owns target); [|done]. by injection Ht as <-. }
  unfold array_chunk_loop. rewrite Hsht, chunk_loop_spec by (rewrite ?replicate_length; auto; lia). cbn [mbind option_bind].
  fold (zeros (length shT)). rewrite HlT. unfold shT at 2. rewrite (pieces_chunks_spec vd) with (c0 := c0); auto.
  destruct (read_pieces vd sh cs axis (loop_fuel shT) ps) as (bss' & Hbss' & Hrd); auto.
  { intros p Hp. rewrite list.Forall_forall in Hps. destruct (Hps p Hp) as (_ & _ & _ & -> & _). apply loop_fuel_insert_mono.
    apply elem_of_list_split in Hp as (l1 & l2 & ->). unfold total. rewrite sum_list_with_app. simpl. lia. }
  assert (bss' = bss) as -> by congruence.
  assert (a_shape t !! axis = Some (total axis ps)) as Hlk by (rewrite Hsht; by apply list_lookup_insert).
  destruct (Hrd t 0%nat rest) as (t' & Ht' & Hat & Hwt & Hst & Hin & _).
  - by apply api_array_wf.
  - by rewrite Hlk, Hsht.
  - rewrite Hlk. simpl. lia.
  - exists t'. split_and!; auto. congruence.
Qed.

(** * C12 *)
Theorem C12_streaming_round_trip vd m (a : ndarr N) cs :
  float_array vd a -> acceptable_chunk (length (a_shape a)) cs -> m <> Automatic -> countable vd m cs (a_shape a) ->
  exists bs, serialize vd m a cs = WOk bs /\
    (* read into any array, from any position of any stream *)
    forall target junk rest, api_array vd target ->
      exists a', deserialize vd (length (a_shape a)) junk target (bs ++ rest) = Some (a', rest) /\
        api_array vd a' /\ a_shape a' = a_shape a /\
        forall x v, in_shape (a_shape a) x -> aread vd a x = Some v ->
          exists v', aread vd a' x = Some v' /\ comes_back m v v'.
Proof.
  intros Hfa Hcs Hm Hct. pose proof (acceptable_facts _ _ Hcs) as (Hl & Hpos & Hcs64 & Hwf).
  pose proof (api_shape_nonempty _ _ (proj1 Hfa)) as Hne.
  destruct (a_shape a) as [|s0 sh] eqn:Hsh; [done|]. set (shA := s0 :: sh) in *.
  destruct cs as [|c0 cs]; [done|].
  assert (a_shape a = <[0%nat := axis_extent 0 a]> shA) as Hins by (unfold axis_extent; by rewrite Hsh).
  assert (piece_ok vd shA (c0 :: cs) 0 (m, a)) as Hp. { rewrite <- Hsh in Hct. by apply countable_piece. }
  destruct (read_pieces vd shA (c0 :: cs) 0 (loop_fuel shA) [(m, a)]) as (bss & Hbss & _); auto.
  { simpl; lia. } { intros p Hp'%elem_of_list_singleton. subst p. simpl. rewrite Hsh. done. }
  pose proof Hbss as Hbss0. cbn [mapM fst snd] in Hbss. destruct (ser_all_chunks vd m a (c0 :: cs)) as [b| |] eqn:Hser; try done.
  cbn in Hbss. injection Hbss as <-.
  unfold serialize. rewrite Hwf, Hser. rewrite Hsh. eexists. split; [done|].
  intros target junk rest Htg.
  destruct (deserialize_pieces vd (c0 :: cs) shA 0 c0 [(m, a)] (if permits_equal shA (c0 :: cs) then Allowed else NotAllowed) target junk rest [b])
    as (t' & Ht' & Hat & Hst & Hrd); auto; try (simpl; lia).
  { unfold total, axis_extent. simpl. rewrite Hsh. simpl. rewrite Nat.add_0_r. by destruct Hct. }
  assert (<[0%nat := total 0 [(m, a)]]> shA = shA) as Etot.
  { unfold total, axis_extent. simpl. rewrite Hsh. simpl. by rewrite Nat.add_0_r. }
  rewrite Etot in *. cbn [mjoin list_join] in Ht'. rewrite app_nil_r in Ht'.
  exists t'. split_and!; auto.
  { rewrite <- app_assoc. exact Ht'. }
  intros x v Hx Hv. specialize (Hrd 0%nat (m, a) x eq_refl). simpl in Hrd. rewrite Hsh in Hrd. specialize (Hrd Hx).
  unfold total in Hrd; simpl in Hrd. rewrite bump_0, Hv in Hrd. eexists. split; [exact Hrd|].
  apply restored_comes_back. by destruct (aread_words vd a x v (proj2 Hfa) Hv).
Qed.
Print Assumptions C12_streaming_round_trip.
(** 2x3 array in chunks of 2x2, null-suppressed, read into an array of another shape, with data following. *)
Example C12_nonvacuous :
  (a ← foldM (fun a w => awrite 1 a w.1 w.2) (anew 1 0%N [2; 3]%nat) [([0; 1]%nat, [7%N]); ([1; 2]%nat, [(2 ^ 31)%N])];
   match serialize 1 NullSuppressed a [2; 2]%nat with
   | WOk bs => '(a', r) ← deserialize 1 2 99%N (anew 1 5%N [4; 4]%nat) (bs ++ [1; 2]%N);
               Some (a_shape a', a_data a', r)
   | _ => None end) = Some ([2; 3]%nat, [0; 7; 0; 0; 0; 0]%N, [1; 2]%N).
Proof. vm_compute. reflexivity. Qed.

(** An ill-formed chunk shape is rejected before anything is written. *)
Theorem C12_ill_formed_chunk_rejected vd m (a : ndarr N) cs :
  Forall (fun c => N.of_nat c = 2 ^ 64 - 1)%N cs -> serialize vd m a cs = WThrow [].
Proof.
  intros H. unfold serialize.
  assert (well_formed cs = false) as ->; [|done].
  unfold well_formed. assert (filter (λ c : nat, N.of_nat c ≠ INFTY) cs = []) as ->; [|done].
  induction H as [|c cs Hc H IH]; [done|]. rewrite filter_cons_False; [done|]. unfold INFTY. intros Hn. by apply Hn.
Qed.
Print Assumptions C12_ill_formed_chunk_rejected.

(** The automatic mode is always rejected ... *)
Theorem C12_automatic_mode_rejected vd (a : ndarr N) cs : exists b, serialize vd Automatic a cs = WThrow b.
Proof. unfold serialize. destruct (well_formed cs); eauto. Qed.
Print Assumptions C12_automatic_mode_rejected.
(** ... but not before anything is written: the header is already in the stream. *)
Theorem C12_automatic_mode_rejected_early_refuted :
  exists (a : ndarr N) cs b, float_array 1 a /\ acceptable_chunk 1 cs /\ serialize 1 Automatic a cs = WThrow b /\ b <> [].
Proof.
  exists (anew 1 0%N [1]%nat), [1%nat]. eexists. split; [|split; [|split; [unfold serialize; reflexivity|by vm_compute]]].
  - split; [by apply api_new|]. repeat constructor.
  - split_and!; [done| |]; repeat constructor; done.
Qed.
Print Assumptions C12_automatic_mode_rejected_early_refuted.

(** * C13 *)
(** A sequence of append calls, each with its own mode. *)
Fixpoint stream_appends (vd dims axis : nat) (f : bytes) (ps : list (smode * ndarr N)) : wresult :=
  match ps with
  | [] => WOk f
  | p :: ps' => match append_slice vd dims p.1 p.2 axis f with WOk f' => stream_appends vd dims axis f' ps' | r => r end
  end.
(** The pieces agree in shape off the axis. *)
Definition same_off_axis (axis : nat) (sh1 sh2 : list nat) : Prop :=
  length sh1 = length sh2 /\ forall j, j <> axis -> sh1 !! j = sh2 !! j.
(** Along [axis] a piece consists of complete serialisation chunks; earlier axes hold one
    chunk each; later axes are one chunk or a whole number of chunks. *)
Definition aligned (axis : nat) (cs sh : list nat) : Prop :=
  (forall j s c, sh !! j = Some s -> cs !! j = Some c ->
     (j < axis -> s <= c) /\ (j = axis -> (c | s)) /\ (axis < j -> s <= c \/ (c | s)))%nat.

Lemma aligned_permits axis cs sh : Forall (fun c => 0 < c)%nat cs -> length cs = length sh -> aligned axis cs sh -> permits_equal sh cs = true.
Proof.
  intros Hpos Hl Ha. unfold permits_equal. apply forallb_forall. intros [s c] Hin. apply elem_of_list_In, elem_of_list_lookup in Hin as [j Hj].
  apply lookup_zip_with_Some in Hj as (s' & c' & [= -> ->] & Hs & Hc). destruct (Ha j s' c' Hs Hc) as (A1 & A2 & A3).
  assert (0 < c')%nat by (by eapply (Forall_lookup_1 _ cs)).
  assert ((c' | s') -> s' mod c' = 0)%nat as Hdm by (intros Hd; apply Nat.mod_divide; lia || done).
  destruct (Nat.ltb_spec c' s'); [|done]. destruct (Nat.eqb_spec (s' mod c') 0); [done|].
  destruct (Nat.lt_trichotomy j axis) as [Hj|[Hj|Hj]]; [specialize (A1 Hj); lia|specialize (A2 Hj); tauto|].
  destruct (A3 Hj); [lia|tauto].
Qed.
Lemma same_off_axis_insert axis sh1 sh2 : same_off_axis axis sh1 sh2 -> (axis < length sh1)%nat ->
  sh2 = <[axis := default 0%nat (sh2 !! axis)]> sh1.
Proof.
  intros [Hl Hj] Hax. apply list_eq. intros i. destruct (decide (i = axis)) as [->|Hi].
  - rewrite list_lookup_insert by done. destruct (lookup_lt_is_Some_2 sh2 axis) as [s Hs]; [lia|]. by rewrite Hs.
  - rewrite list_lookup_insert_ne by done. symmetry. by apply Hj.
Qed.
Lemma alter_insert (f : nat -> nat) (axis n : nat) (sh : list nat) : alter f axis (<[axis := n]> sh) = <[axis := f n]> sh.
Proof. revert axis; induction sh as [|s sh IH]; intros [|axis]; simpl; try done. f_equal. apply IH. Qed.
Lemma shape_allows_insert axis n sh sh2 : length sh2 = length sh -> (forall j, j <> axis -> sh !! j = sh2 !! j) ->
  shape_allows_concat (<[axis := n]> sh) sh2 axis = true.
Proof.
  intros Hl Hj. unfold shape_allows_concat. rewrite insert_length, Hl, Nat.eqb_refl. cbn [andb].
  apply forallb_forall. intros i _. destruct (Nat.eqb_spec i axis); [done|]. apply bool_decide_eq_true.
  rewrite list_lookup_insert_ne by done. by apply Hj.
Qed.

Theorem C13_streaming_append_partial vd axis cs (a : ndarr N) m ps :
  let all := (m, a) :: ps in
  let extent (p : smode * ndarr N) := default 0%nat (a_shape p.2 !! axis) in
  acceptable_chunk (length (a_shape a)) cs -> (axis < length (a_shape a))%nat ->
  Forall (fun p => float_array vd p.2 /\ p.1 <> Automatic /\ countable vd p.1 cs (a_shape p.2) /\
                   same_off_axis axis (a_shape a) (a_shape p.2)) all ->
  (* all pieces but the last are aligned, the last only off the axis *)
  (forall k p, all !! k = Some p -> if decide (S k < length all)%nat then aligned axis cs (a_shape p.2)
                                    else aligned axis cs (<[axis := 0%nat]> (a_shape p.2))) ->
  (N.of_nat (sum_list_with extent all) < 2 ^ 64)%N ->
  exists f0 f, serialize vd m a cs = WOk f0 /\ stream_appends vd (length (a_shape a)) axis f0 ps = WOk f /\
    forall target junk, api_array vd target ->
      exists a', deserialize vd (length (a_shape a)) junk target f = Some (a', []) /\ api_array vd a' /\
        same_off_axis axis (a_shape a) (a_shape a') /\ a_shape a' !! axis = Some (sum_list_with extent all) /\
        (* piece k is found behind pieces 0..k-1 *)
        forall k p x v, all !! k = Some p -> in_shape (a_shape p.2) x -> aread vd p.2 x = Some v ->
          exists v', aread vd a' (alter (Nat.add (sum_list_with extent (take k all))) axis x) = Some v' /\ comes_back p.1 v v'.
Proof.
  intros all extent Hcs Hax Hall Hal H64. pose proof (acceptable_facts _ _ Hcs) as (Hl & Hpos & Hcs64 & Hwf).
  set (sh := a_shape a) in *.
  destruct (lookup_lt_is_Some_2 cs axis) as [c0 Hc0]; [lia|].
  assert (Forall (piece_ok vd sh cs axis) all) as Hps.
  { eapply list.Forall_impl; [exact Hall|]. intros [m' p] (H1 & H2 & H3 & H4). apply countable_piece; auto. simpl.
    by apply same_off_axis_insert. }
  assert (aligned axis cs (<[axis := 0%nat]> sh)) as Hal0.
  { specialize (Hal 0%nat (m, a) eq_refl). destruct (decide _); [|done]. intros j s c Hs Hc. simpl in Hal. fold sh in Hal.
    destruct (decide (j = axis)) as [->|Hj].
    - rewrite list_lookup_insert in Hs by done. injection Hs as <-. split_and!; try lia. intros. exists 0%nat. done.
    - rewrite list_lookup_insert_ne in Hs by done. by apply Hal. }
  assert (forall j s c, (j < axis)%nat -> sh !! j = Some s -> cs !! j = Some c -> (s <= c)%nat) as Hsm.
  { intros j s c Hj Hs Hc. apply (Hal0 j s c); [rewrite list_lookup_insert_ne by lia; done|done|done]. }
  assert (forall k p, S k < length all -> all !! k = Some p -> aligned axis cs (a_shape p.2))%nat as Hal1.
  { intros k p Hk Hp. specialize (Hal k p Hp). destruct (decide _); [done|lia]. }
  assert (forall k p, S k < length all -> all !! k = Some p -> (c0 | axis_extent axis p.2))%nat as Hdiv.
  { intros k p Hk Hp. specialize (Hal1 k p Hk Hp). destruct (lookup_lt_is_Some_2 (a_shape p.2) axis) as [s Hs].
    { rewrite Forall_lookup in Hall. destruct (Hall k p Hp) as (_ & _ & _ & [Hll _]). fold sh in Hll. lia. }
    unfold axis_extent. rewrite Hs. by apply (Hal1 axis s c0). }
  assert (forall n, (N.of_nat n < 2 ^ 64)%N -> Forall (fun s => N.of_nat s < 2 ^ 64)%N (<[axis := n]> sh)) as Hins64.
  { intros n Hn. apply Forall_insert; [|done]. apply list.Forall_cons in Hall as [(_ & _ & (H & _) & _) _]. exact H. }
  destruct (read_pieces vd sh cs axis (loop_fuel (<[axis := total axis all]> sh)) all) as (bss & Hbss & _); auto.
  { intros p Hp. rewrite list.Forall_forall in Hps. destruct (Hps p Hp) as (_ & _ & _ & -> & _). apply loop_fuel_insert_mono.
    apply elem_of_list_split in Hp as (l1 & l2 & ->). unfold total. rewrite sum_list_with_app. simpl. lia. }
  (* the file after appending the pieces [ps1] *)
  assert (forall ps1 ps2 bs1 acc, all = ps1 ++ ps2 -> ps1 <> [] ->
    (ps2 <> [] -> acc = Allowed) ->
    mapM (fun p => match ser_all_chunks vd p.1 p.2 cs with WOk b => Some b | _ => None end) ps1 = Some bs1 ->
    exists acc', stream_appends vd (length sh) axis (enc_meta (SMeta cs (<[axis := total axis ps1]> sh) acc) ++ mjoin bs1) ps2 =
      WOk (enc_meta (SMeta cs (<[axis := total axis all]> sh) acc') ++ mjoin bss)) as Happ.
  { intros ps1 ps2. revert ps1. induction ps2 as [|p ps2 IH]; intros ps1 bs1 acc Heq Hne Hacc Hbs1.
    - rewrite app_nil_r in Heq. subst ps1. simpl. rewrite Hbss in Hbs1. injection Hbs1 as <-. eauto.
    - rewrite Hacc by done. cbn [stream_appends]. unfold append_slice.
      assert (total axis ps1 + axis_extent axis p.2 + total axis ps2 = total axis all)%nat as Htot.
      { rewrite Heq. unfold total. rewrite sum_list_with_app. simpl. lia. }
      assert (N.of_nat (total axis all) < 2 ^ 64)%N as H64' by exact H64.
      assert (p ∈ all) as Hpin by (rewrite Heq; apply elem_of_app; right; left).
      pose proof Hall as Hall'. rewrite list.Forall_forall in Hall'. destruct (Hall' p Hpin) as (_ & Hpm & _ & [Hpl Hpj]). fold sh in Hpl, Hpj.
      rewrite dec_enc_meta by (cbn [m_cs m_shape]; rewrite ?insert_length; auto; apply Hins64; lia). cbn [m_mode m_shape m_cs].
      rewrite shape_allows_insert by auto.
      assert (exists bp, ser_all_chunks vd p.1 p.2 cs = WOk bp) as [bp Hbp].
      { rewrite Heq in Hbss. apply mapM_Some in Hbss. apply Forall2_app_inv_l in Hbss as (l1 & l2 & _ & Hl2 & _).
        inversion Hl2 as [|? b ? ? Hb]; subst. destruct (ser_all_chunks vd p.1 p.2 cs); try done. eauto. }
      rewrite Hbp, alter_insert. fold (axis_extent axis p.2).
      set (acc' := if permits_equal (a_shape p.2) cs then Allowed else NotAllowed).
      destruct (IH (ps1 ++ [p]) (bs1 ++ [bp]) acc') as (acc2 & Hacc2).
      + rewrite Heq. by rewrite <- app_assoc.
      + by destruct ps1.
      + intros Hne2. unfold acc'. rewrite (aligned_permits axis); [done|done|lia|]. apply (Hal1 (length ps1)).
        * rewrite Heq, app_length. destruct ps2; [done|]. simpl. lia.
        * rewrite Heq. rewrite lookup_app_r by lia. by rewrite Nat.sub_diag.
      + apply mapM_Some. apply Forall2_app; [by apply mapM_Some|]. constructor; [|constructor]. by rewrite Hbp.
      + exists acc2. rewrite <- Hacc2. f_equal. rewrite mjoin_app'. cbn [mjoin list_join]. rewrite app_nil_r.
        unfold total. rewrite sum_list_with_app. simpl. rewrite Nat.add_0_r. done. }
  destruct (mapM _ all) as [bb|] eqn:Hbb in Hbss; [|done]. injection Hbss as ->.
  pose proof Hbb as Hbb'. unfold all in Hbb'. cbn [mapM fst snd] in Hbb'.
  destruct (ser_all_chunks vd m a cs) as [b0| |] eqn:Hser; try done. cbn [mbind option_bind] in Hbb'.
  set (acc0 := if permits_equal sh cs then Allowed else NotAllowed).
  destruct (Happ [(m, a)] ps [b0] acc0) as (acc' & Hacc'); try done.
  { intros Hne. unfold acc0. rewrite (aligned_permits axis); [done|done|lia|]. apply (Hal1 0%nat (m, a)); [|done].
    unfold all. destruct ps; [done|]. simpl. lia. }
  { cbn [mapM fst snd]. rewrite Hser. done. }
  eexists _, _. split.
  { unfold serialize. rewrite Hwf, Hser. reflexivity. }
  split.
  { rewrite <- Hacc'. f_equal. cbn [mjoin list_join]. rewrite app_nil_r. f_equal. unfold acc0. f_equal. f_equal.
    unfold total, axis_extent. simpl. rewrite Nat.add_0_r. apply same_off_axis_insert; [|done]. split; done. }
  intros target junk Htg.
  destruct (deserialize_pieces vd cs sh axis c0 all acc' target junk [] bss) as (t' & Ht' & Hat & Hst & Hrd); auto; try done.
  exists t'. rewrite app_nil_r in Ht'. split_and!; auto.
  - rewrite Hst. split; [by rewrite insert_length|]. intros j Hj. by rewrite list_lookup_insert_ne.
  - rewrite Hst. rewrite list_lookup_insert by done. done.
  - intros k p x v Hp Hx Hv. specialize (Hrd k p x Hp Hx). rewrite Hv in Hrd. eexists. split; [exact Hrd|].
    rewrite Forall_lookup in Hall. destruct (Hall k p Hp) as ([_ Hw] & _).
    apply restored_comes_back. by destruct (aread_words vd p.2 x v Hw Hv).
Qed.
Print Assumptions C13_streaming_append_partial.
(** A 2-d array with chunks (1, infinite), appending two slices in different modes. *)
Example C13_nonvacuous :
  (a ← awrite 1 (anew 1 0%N [1; 2]%nat) [0; 1]%nat [7%N];
   b ← awrite 1 (anew 1 0%N [2; 2]%nat) [1; 0]%nat [8%N];
   match serialize 1 Dense a [1; 5]%nat with
   | WOk f0 => match stream_appends 1 2 0 f0 [(NullSuppressed, b); (Dense, a)] with
               | WOk f => '(t, r) ← deserialize 1 2 0%N (anew 1 5%N [4; 4]%nat) f; Some (a_shape t, a_data t, r)
               | _ => None end
   | _ => None end) = Some ([4; 2]%nat, [0; 7; 0; 0; 8; 0; 0; 7]%N, []).
Proof. vm_compute. reflexivity. Qed.

(** The writer also accepts pieces smaller than a chunk (they "permit equally sized chunks");
    appending to such a file silently makes it unreadable. *)
Definition wbytes (r : wresult) : bytes := match r with WOk b | WThrow b => b | WUndef => [] end.
Lemma anew_float vd sh : sh <> [] -> float_array vd (anew vd 0%N sh).
Proof. intros. split; [by apply api_new|]. simpl. by apply Forall_replicate. Qed.
Lemma deser_chunk_rest vd a s c a' s2 : deser_chunk vd (a, s) c = Some (a', s2) ->
  (x ← dec_chunk_meta s; y ← read_buffer x.1.2 x.2; Some y.2) = Some s2.
Proof.
  unfold deser_chunk. destruct (dec_chunk_meta s) as [[[m n] s1]|]; [|done]. cbn [mbind option_bind fst snd].
  destruct (read_buffer n s1) as [[buf s2']|]; [|done]. cbn [mbind option_bind fst snd].
  destruct m as [[]|]; try done.
  - destruct (dense_from_buffer _ _ _) as [[els r]|]; [|done]. cbn [mbind option_bind]. destruct (_ =? _)%nat; [|done].
    destruct (store_chunk _ _ _ _); [|done]. cbn. by intros [= _ ->].
  - destruct (desuppress_null _ _ _) as [[els r]|]; [|done]. cbn [mbind option_bind]. destruct (_ =? _)%nat; [|done].
    destruct (store_chunk _ _ _ _); [|done]. cbn. by intros [= _ ->].
Qed.
Theorem C13_small_pieces_refuted :
  exists (a : ndarr N) cs f0 f, float_array 1 a /\ acceptable_chunk 1 cs /\
    serialize 1 Dense a cs = WOk f0 /\ append_slice 1 1 Dense a 0 f0 = WOk f /\
    forall target, api_array 1 target -> deserialize 1 1 0%N target f = None.
Proof.
  exists (anew 1 0%N [1]%nat), [2%nat].
  exists (wbytes (serialize 1 Dense (anew 1 0%N [1]%nat) [2%nat])).
  exists (wbytes (append_slice 1 1 Dense (anew 1 0%N [1]%nat) 0 (wbytes (serialize 1 Dense (anew 1 0%N [1]%nat) [2%nat])))).
  split; [by apply anew_float|]. split; [|split; [|split]].
  - split_and!; [done| |]; repeat constructor; done.
  - vm_compute. reflexivity.
  - vm_compute. reflexivity.
  - intros target Htg. pose proof (api_array_wf _ _ Htg) as (_ & _ & _ & _ & Ho).
    destruct target as [tsh tst toff tdata town]. simpl in Ho. subst town. vm_compute. reflexivity.
Qed.
Print Assumptions C13_small_pieces_refuted.

(** A file marked as final, or written with chunks of different sizes, refuses appends and stays as it is. *)
Theorem C13_final_file_rejects vd dims m (a : ndarr N) cs slice axis f f' :
  length (a_shape a) = dims -> acceptable_chunk dims cs -> countable vd m cs (a_shape a) ->
  serialize vd m a cs = WOk f -> mark_as_final dims f = Some f' ->
  (forall m', append_slice vd dims m' slice axis f' = WThrow f') /\
  (forall target junk, api_array vd target -> deserialize vd dims junk target f' = deserialize vd dims junk target f).
Proof.
  intros Hd Hcs (H64 & _ & _) Hser Hfin. pose proof (acceptable_facts _ _ Hcs) as (Hl & Hpos & Hcs64 & Hwf).
  unfold serialize in Hser. rewrite Hwf in Hser. destruct (ser_all_chunks vd m a cs) as [b| |]; try done. injection Hser as <-.
  unfold mark_as_final in Hfin. rewrite dec_enc_meta in Hfin by (simpl; auto). cbn [mbind option_bind m_mode m_cs m_shape] in Hfin.
  assert (f' = enc_meta (SMeta cs (a_shape a) NotAllowed) ++ b) as ->.
  { destruct (permits_equal (a_shape a) cs); by injection Hfin as <-. }
  split.
  - intros m'. unfold append_slice. rewrite dec_enc_meta by (simpl; auto). done.
  - intros target junk Htg. unfold deserialize. rewrite !dec_enc_meta by (simpl; auto). done.
Qed.
Print Assumptions C13_final_file_rejects.

Theorem C13_unequal_chunks_reject vd dims m (a : ndarr N) cs slice axis f j s c :
  length (a_shape a) = dims -> acceptable_chunk dims cs -> countable vd m cs (a_shape a) ->
  a_shape a !! j = Some s -> cs !! j = Some c -> (c < s)%nat -> ~ (c | s)%nat ->
  serialize vd m a cs = WOk f -> forall m', append_slice vd dims m' slice axis f = WThrow f.
Proof.
  intros Hd Hcs (H64 & _ & _) Hs Hc Hlt Hndiv Hser m'. pose proof (acceptable_facts _ _ Hcs) as (Hl & Hpos & Hcs64 & Hwf).
  unfold serialize in Hser. rewrite Hwf in Hser. destruct (ser_all_chunks vd m a cs) as [b| |]; try done. injection Hser as <-.
  unfold append_slice. rewrite dec_enc_meta by (simpl; auto). cbn [m_mode].
  assert (permits_equal (a_shape a) cs = false) as ->; [|done].
  unfold permits_equal. apply not_true_iff_false. intros Hall. rewrite forallb_forall in Hall.
  specialize (Hall (s, c)). assert (0 < c)%nat by (by eapply (Forall_lookup_1 _ cs)).
  assert (s mod c <> 0)%nat as Hm by (intros Hm; apply Nat.mod_divide in Hm; [tauto|lia]).
  cbv beta iota in Hall. rewrite (proj2 (Nat.ltb_lt c s) Hlt), (proj2 (Nat.eqb_neq _ _) Hm) in Hall.
  discriminate Hall. apply elem_of_list_In, elem_of_list_lookup. exists j. rewrite lookup_zip_with, Hs, Hc. done.
Qed.
Print Assumptions C13_unequal_chunks_reject.
Example C13_unequal_nonvacuous :
  match serialize 1 Dense (anew 1 0%N [3]%nat) [2]%nat with
  | WOk f => match append_slice 1 1 Dense (anew 1 0%N [2]%nat) 0 f with WThrow f' => bool_decide (f' = f) | _ => false end
  | _ => false end = true.
Proof. vm_compute. reflexivity. Qed.

(** Appending in the automatic mode throws, but only after the extent in the header has been
    increased: the file can no longer be read. *)
Theorem C13_automatic_append_corrupts_refuted :
  exists (a : ndarr N) cs f0 f, float_array 1 a /\ acceptable_chunk 1 cs /\
    serialize 1 Dense a cs = WOk f0 /\ append_slice 1 1 Automatic a 0 f0 = WThrow f /\
    forall target, api_array 1 target -> deserialize 1 1 0%N target f = None.
Proof.
  set (a := anew 1 0%N [1]%nat). set (f0 := wbytes (serialize 1 Dense a [1%nat])).
  set (f := wbytes (append_slice 1 1 Automatic a 0 f0)). exists a, [1%nat], f0, f.
  split; [by apply anew_float|]. split; [|split; [|split]].
  - split_and!; [done| |]; repeat constructor; done.
  - vm_compute. reflexivity.
  - vm_compute. reflexivity.
  - intros target Htg. pose proof (api_array_wf _ _ Htg) as (_ & _ & _ & _ & Ho).
    unfold deserialize.
    assert (dec_meta 1 f = Some (SMeta [1%nat] [2%nat] Allowed, drop 24 f)) as -> by (vm_compute; reflexivity).
    cbn [mbind option_bind m_shape m_cs]. unfold aresize. rewrite Ho. cbn [mbind option_bind a_shape].
    assert (array_chunk_loop (loop_fuel [2%nat]) [2%nat] [1%nat] = Some [([0], [1]); ([1], [2])]%nat) as -> by reflexivity.
    cbn [mbind option_bind foldM]. destruct (deser_chunk 1 (_, drop 24 f) _) as [[a' s2]|] eqn:Hd; [|done].
    apply deser_chunk_rest in Hd. vm_compute in Hd. injection Hd as <-. reflexivity.
Qed.
Print Assumptions C13_automatic_append_corrupts_refuted.
