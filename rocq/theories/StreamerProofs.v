From stdpp Require Import base list list_numbers numbers option.
From Verif Require Import IndexSpec LoopsModel LoopsProofs NDArrayModel NDArrayProofs NDArrayOps NDArrayOps2 NDArrayProps
  CodecModel CodecProps NullSupModel NullSupProps StreamerModel.
From Coq Require Import NArith Lia.

(** * Metadata *)
Lemma dec_enc_shape sh dims rest : length sh = dims -> Forall (fun s => N.of_nat s < 2 ^ 64)%N sh ->
  dec_shape dims (enc_shape sh ++ rest) = Some (sh, rest).
Proof.
  intros <- Hs. unfold dec_shape, enc_shape. pose proof (arr_rt (length sh) u64 u64_rt (N.of_nat <$> sh) rest) as H.
  cbn [arr enc dec] in *. rewrite H.
  - cbn. do 2 f_equal. rewrite <- list_fmap_compose. transitivity (id <$> sh); [|apply list_fmap_id].
    apply list_fmap_ext. intros ? x _. cbn. apply Nat2N.id.
  - split; [by rewrite fmap_length|]. rewrite Forall_fmap. exact Hs.
Qed.
Lemma dec_enc_meta m dims rest :
  length (m_cs m) = dims -> length (m_shape m) = dims ->
  Forall (fun s => N.of_nat s < 2 ^ 64)%N (m_cs m) -> Forall (fun s => N.of_nat s < 2 ^ 64)%N (m_shape m) ->
  dec_meta dims (enc_meta m ++ rest) = Some (m, rest).
Proof.
  intros H1 H2 H3 H4. unfold dec_meta, enc_meta. rewrite <- !app_assoc.
  rewrite dec_enc_shape by done. cbn [mbind option_bind]. rewrite dec_enc_shape by done. cbn [mbind option_bind].
  rewrite u64_rt by (by destruct (m_mode m)). cbn [mbind option_bind]. destruct m as [cs sh []]; done.
Qed.
Lemma dec_enc_chunk_meta m n rest : (N.of_nat n < 2 ^ 64)%N ->
  dec_chunk_meta (enc_chunk_meta m n ++ rest) = Some (Some m, n, rest).
Proof.
  intros Hn. unfold dec_chunk_meta, enc_chunk_meta. rewrite <- app_assoc.
  rewrite u64_rt by (by destruct m). cbn [mbind option_bind]. rewrite u64_rt by done. cbn [mbind option_bind].
  rewrite Nat2N.id. by destruct m.
Qed.
Lemma buffer_bytes_length buf : length (buffer_bytes buf) = (4 * length buf)%nat.
Proof. unfold buffer_bytes. induction buf as [|x l IH]; [done|]. rewrite fmap_cons, mjoin_cons, app_length, to_le_length, IH. simpl. lia. Qed.
Lemma raw_words_buffer buf : Forall (fun b => b < 2 ^ 32)%N buf -> raw_words (length buf) (buffer_bytes buf) = buf.
Proof.
  unfold buffer_bytes. induction 1 as [|w buf Hw Hb IH]; [done|]. rewrite fmap_cons, mjoin_cons. cbn [length raw_words].
  rewrite take_app_alt, drop_app_alt by (by rewrite to_le_length). rewrite IH, of_to_le.
  change (256 ^ N.of_nat 4)%N with (2 ^ 32)%N. by rewrite N.mod_small.
Qed.
Lemma read_buffer_app buf rest : Forall (fun b => b < 2 ^ 32)%N buf ->
  read_buffer (length buf) (buffer_bytes buf ++ rest) = Some (buf, rest).
Proof.
  intros H. unfold read_buffer. rewrite read_bytes_app by apply buffer_bytes_length. cbn [mbind option_bind]. by rewrite raw_words_buffer.
Qed.

(** * Words of buffers *)
Lemma htonl_words v : Forall (fun b => b < 2 ^ 32)%N (htonl <$> v).
Proof. rewrite Forall_fmap. apply Forall_true. intros; apply htonl_bound. Qed.
Lemma dense_words els : Forall (fun b => b < 2 ^ 32)%N (dense_to_buffer els).
Proof.
  unfold dense_to_buffer. induction els as [|v els IH]; [constructor|]. rewrite fmap_cons, mjoin_cons.
  apply Forall_app. split; [apply htonl_words|done].
Qed.
Lemma enc_rest_words vd n els : Forall (fun b => b < 2 ^ 32)%N (enc_rest vd n els).
Proof.
  revert n; induction els as [|v els IH]; intros n; cbn [enc_rest].
  - destruct (0 <? n)%N; repeat constructor. apply htonl_bound.
  - destruct (is_null v); rewrite ?Forall_app.
    + split; [|apply IH]. destruct (n =? 0)%N; [|constructor]. apply Forall_replicate, htonl_bound.
    + split_and!; [|apply htonl_words|apply IH]. destruct (0 <? n)%N; repeat constructor. apply htonl_bound.
Qed.

(** * Elements of a view *)
Definition words_ok (a : ndarr N) : Prop := Forall (fun b => b < 2 ^ 32)%N (a_data a).

Lemma aread_words vd a x v : words_ok a -> aread vd a x = Some v -> length v = vd /\ Forall (fun b => b < 2 ^ 32)%N v.
Proof.
  intros Hw Hv. unfold aread in Hv. destruct (has_index _ _); [|done].
  unfold block in Hv. destruct (_ <=? _)%nat eqn:Hle; [|done]. injection Hv as <-. apply Nat.leb_le in Hle. split.
  - rewrite take_length, drop_length. lia.
  - by apply Forall_take, Forall_drop.
Qed.

(** A list of elements represents the contents of [a] over a box. *)
Definition lists_box (vd : nat) (a : ndarr N) (els : list (list N)) : Prop :=
  length els = volume (a_shape a) /\ forall x, in_shape (a_shape a) x -> els !! rank (a_shape a) x = aread vd a x.

Lemma lists_box_unique vd a els els' : lists_box vd a els -> lists_box vd a els' -> els = els'.
Proof.
  intros [H1 H2] [H3 H4]. apply list_eq. intros k. destruct (decide (k < volume (a_shape a))%nat) as [Hk|Hk].
  - destruct (unrank_spec _ _ Hk) as [Hin <-]. by rewrite H2, H4.
  - rewrite !lookup_ge_None_2 by lia. done.
Qed.
Lemma indexed_elements_spec vd (a : ndarr N) : wf vd a -> exists els, indexed_elements vd a = Some els /\ lists_box vd a els.
Proof.
  intros Hwf. unfold indexed_elements. rewrite elem_loop_spec by (rewrite ?replicate_length; done). cbn [mbind option_bind].
  rewrite (mapM_Some_const _ (fun x => default [] (aread vd a x))).
  2:{ intros x Hx%elem_of_box_elems_shape. destruct (aread_Some vd a x Hwf Hx) as (v & -> & _). done. }
  eexists. split; [done|]. split.
  - rewrite fmap_length. apply box_elems_length_shape.
  - intros x Hx. rewrite list_lookup_fmap.
    assert (box_elems (replicate (length (a_shape a)) 0%nat) (a_shape a) !! rank (a_shape a) x = Some x) as -> by (by apply box_elems_rank).
    simpl. destruct (aread_Some vd a x Hwf Hx) as (v & -> & _). done.
Qed.
Lemma aelements_lists vd (a : ndarr N) : wf vd a -> exists els, aelements vd a = Some els /\ lists_box vd a els.
Proof. intros Hwf. destruct (aelements_spec vd a Hwf) as (l & H1 & H2 & H3). exists l. by repeat split. Qed.

Lemma lists_box_proper vd a els : wf vd a -> words_ok a -> lists_box vd a els -> proper_elements vd els.
Proof.
  intros Hwf Hw [Hl Hr]. apply Forall_lookup. intros k v Hk.
  pose proof (lookup_lt_Some _ _ _ Hk) as Hlt. rewrite Hl in Hlt.
  destruct (unrank_spec _ _ Hlt) as [Hin Heq]. specialize (Hr _ Hin). rewrite Heq, Hk in Hr.
  symmetry in Hr. by eapply aread_words.
Qed.

(** * Storing through a view *)
Lemma foldM_set_block_awrite {A} vd (ws : list (list nat * list A)) (a : ndarr A) st :
  a_strides a = st -> (forall w, w ∈ ws -> in_shape (a_shape a) w.1 /\ length w.2 = vd) ->
  foldM (fun a w => awrite vd a w.1 w.2) a ws =
    (d ← foldM (fun d w => set_block d (flat_ind st (a_off a) w.1) w.2) (a_data a) ws;
     Some (NDArr (a_shape a) st (a_off a) d (a_owns a))).
Proof.
  intros <-. revert a; induction ws as [|w ws IH]; intros a Hin; cbn [foldM].
  - cbn. by destruct a.
  - destruct (Hin w) as [Hw1 Hw2]; [left|].
    assert (awrite vd a w.1 w.2 = (d ← set_block (a_data a) (flat_ind (a_strides a) (a_off a) w.1) w.2;
      Some (NDArr (a_shape a) (a_strides a) (a_off a) d (a_owns a)))) as ->.
    { unfold awrite. rewrite (proj2 (has_index_true _ _) Hw1), Hw2, Nat.eqb_refl. done. }
    destruct (set_block (a_data a) _ _) as [d|]; [|done]. cbn [mbind option_bind].
    rewrite IH; [done|]. intros w' Hw'. cbn. apply Hin. by right.
Qed.

Lemma foldM_awrite_api {A} vd (ws : list (list nat * list A)) (a a' : ndarr A) :
  api_array vd a -> foldM (fun a w => awrite vd a w.1 w.2) a ws = Some a' -> api_array vd a'.
Proof.
  revert a; induction ws as [|w ws IH]; intros a Ha H; cbn [foldM] in H; [by injection H as <-|].
  destruct (awrite vd a w.1 w.2) as [a1|] eqn:H1; [|done]. eapply IH; [|exact H]. by eapply api_write.
Qed.

Lemma vsub_vadd_cancel b x : length x = length b -> vsub (vadd b x) b = x.
Proof. revert x; induction b as [|b0 b IH]; intros [|x0 x] Hl; simpl in *; try done; try lia. unfold vsub, vadd in *. simpl. f_equal; [lia|]. apply IH. lia. Qed.
Lemma in_box_local b e y : in_box b e y -> in_shape (vsub e b) (vsub y b) /\ vadd b (vsub y b) = y.
Proof.
  revert e y; induction b as [|b0 b IH]; intros [|e0 e] [|y0 y]; simpl; try tauto.
  intros [H1 H2]. destruct (IH _ _ H2) as [IH1 IH2]. unfold vsub, vadd in *. split.
  - apply in_shape_cons. eexists _, _. split_and!; eauto. lia.
  - f_equal; [lia|done].
Qed.
Lemma local_in_box b e x : Forall2 le b e -> in_shape (vsub e b) x -> in_box b e (vadd b x) /\ length x = length b.
Proof.
  intros H. revert x. induction H as [|b0 e0 b e Hle H IH]; intros x Hx.
  - apply in_shape_nil in Hx as ->. done.
  - change (vsub (e0 :: e) (b0 :: b)) with ((e0 - b0)%nat :: vsub e b) in Hx.
    apply in_shape_cons in Hx as (x0 & x' & -> & H0 & Hx). destruct (IH _ Hx) as [H1 H2]. split; [|simpl; lia].
    change (vadd (b0 :: b) (x0 :: x')) with ((b0 + x0)%nat :: vadd b x'). simpl. split; [lia|done].
Qed.
Lemma in_box_in_shape b e sh y : Forall2 le e sh -> in_box b e y -> in_shape sh y.
Proof. intros H Hy. apply in_shape_forall2. apply in_box_forall2 in Hy as [_ Hy]. by eapply Forall2_lt_le_trans. Qed.

Lemma store_chunk_spec {A} vd (t : ndarr A) b e els :
  wf_owned vd t -> Forall2 le b e -> Forall2 le e (a_shape t) ->
  length els = volume (vsub e b) -> Forall (fun v => length v = vd) els ->
  exists t', store_chunk vd t (b, e) els = Some t' /\ (api_array vd t -> api_array vd t') /\ wf_owned vd t' /\ a_shape t' = a_shape t /\
    (forall y, in_box b e y -> aread vd t' y = els !! rank (vsub e b) (vsub y b)) /\
    (forall y, in_shape (a_shape t) y -> ~ in_box b e y -> aread vd t' y = aread vd t y).
Proof.
  intros Hwf Hbe Hes Hlen Hels. pose proof (wf_owned_wf _ _ Hwf) as [(st & Hst & Hlst) _].
  pose proof (Forall2_length _ _ _ Hbe) as L1. pose proof (Forall2_length _ _ _ Hes) as L2.
  unfold store_chunk. cbn [aview a_shape a_strides a_off fst snd]. fold (vsub e b). rewrite Hst.
  assert (length (vsub e b) = length e) as L3 by (apply vsub_length; lia).
  rewrite index_loop_positions_spec.
  2:{ intros Heq. apply (f_equal length) in Heq. rewrite replicate_length in Heq. simpl in Heq. lia. }
  2:{ by rewrite replicate_length. }
  2:{ rewrite replicate_length. lia. }
  cbn [mbind option_bind]. set (xs := box_elems _ _).
  assert (forall x, x ∈ xs -> in_shape (vsub e b) x) as Hxs by (intros x; by apply elem_of_box_elems_shape).
  set (ws := zip (vadd b <$> xs) els).
  assert (length xs = length els) as Lxs by (rewrite Hlen; apply box_elems_length_shape).
  assert (foldM (fun d (pe : (list nat * nat) * list A) => set_block d pe.1.2 pe.2) (a_data t)
            (zip ((fun x => (x, flat_ind (st ++ [vd]) (flat_ind (st ++ [vd]) (a_off t) b) x)) <$> xs) els)
          = foldM (fun d w => set_block d (flat_ind (a_strides t) (a_off t) w.1) w.2) (a_data t) ws) as ->.
  { unfold ws. clear ws Hlen Hels Lxs. clearbody xs. generalize (a_data t). revert els. induction xs as [|x xs IH]; intros els d; [done|]. destruct els as [|v els]; [done|].
    cbn [fmap list_fmap zip zip_with foldM fst snd]. rewrite Hst.
    rewrite flat_ind_add by (pose proof (in_shape_length _ _ (Hxs x ltac:(left))) as Hl; rewrite ?Hst, ?app_length; simpl; lia).
    destruct (set_block _ _ _); [|done]. cbn [mbind option_bind]. rewrite <- Hst. rewrite <- Hst in IH. apply IH. intros y Hy. apply Hxs. by right. }
  assert (ws.*1 = vadd b <$> xs) as Hws1 by (apply fst_zip; rewrite fmap_length; lia).
  assert (forall w, w ∈ ws -> in_shape (a_shape t) w.1 /\ length w.2 = vd) as Hws.
  { intros [w1 w2] Hw. split.
    - apply (elem_of_list_fmap_1 fst) in Hw. rewrite Hws1 in Hw. apply elem_of_list_fmap in Hw as (x & Heq & Hx). rewrite Heq.
      apply (in_box_in_shape b e); [done|]. by apply local_in_box, Hxs.
    - apply elem_of_zip_r in Hw. rewrite list.Forall_forall in Hels. by apply Hels. }
  destruct (foldM_awrite vd ws t) as (t' & Ht' & Hwf' & Hsh' & Hr & Ho); [done| |done|].
  { rewrite Hws1. apply NoDup_fmap_2_strong; [|apply box_elems_NoDup]. intros x y Hx%Hxs Hy%Hxs Heq.
    apply local_in_box in Hx as [_ Hx]; [|done]. apply local_in_box in Hy as [_ Hy]; [|done].
    rewrite <- (vsub_vadd_cancel b x), <- (vsub_vadd_cancel b y) by done. by rewrite Heq. }
  assert (api_array vd t -> api_array vd t') as Hapi by (intros; by eapply foldM_awrite_api).
  rewrite (foldM_set_block_awrite vd ws t (a_strides t)) in Ht' by done.
  destruct (foldM _ (a_data t) ws) as [d|]; [|done]. cbn [mbind option_bind] in *. injection Ht' as <-.
  rewrite <- Hst. eexists. split; [done|]. split_and!; auto.
  - intros y Hy. destruct (in_box_local _ _ _ Hy) as [Hl Heq].
    assert (xs !! rank (vsub e b) (vsub y b) = Some (vsub y b)) as Hk by (by apply box_elems_rank).
    destruct (lookup_lt_is_Some_2 els (rank (vsub e b) (vsub y b))) as [v Hv].
    { rewrite <- Lxs. by eapply lookup_lt_Some. }
    rewrite Hv. specialize (Hr (y, v)). cbn in Hr. apply Hr. unfold ws.
    apply elem_of_list_lookup. exists (rank (vsub e b) (vsub y b)). rewrite lookup_zip_with, list_lookup_fmap, Hk, Hv. cbn. by rewrite Heq.
  - intros y Hy Hno. apply Ho; [done|]. rewrite Hws1. intros (x & -> & Hx)%elem_of_list_fmap. apply Hno. by apply local_in_box, Hxs.
Qed.

(** * One chunk *)
Definition restored (vd : nat) (m : smode) (v : list N) : list N :=
  match m with NullSuppressed => canon vd v | _ => v end.

Lemma canon_length vd v : length v = vd -> length (canon vd v) = vd.
Proof. intros. unfold canon. destruct (is_null v); [apply replicate_length|done]. Qed.

Lemma ser_deser_chunk vd m (a : ndarr N) b e :
  m <> Automatic -> wf_owned vd a -> words_ok a -> Forall2 le b e -> Forall2 le e (a_shape a) ->
  (N.of_nat (nullsup_buflen (volume (vsub e b)) vd) < 2 ^ 64)%N ->
  (m = NullSuppressed -> N.of_nat (volume (vsub e b)) < 2 ^ 32)%N ->
  exists bs, ser_chunk vd m a (b, e) = Some bs /\
    forall t b' e' rest, wf_owned vd t -> Forall2 le b' e' -> Forall2 le e' (a_shape t) -> vsub e' b' = vsub e b ->
      exists t', deser_chunk vd (t, bs ++ rest) (b', e') = Some (t', rest) /\ (api_array vd t -> api_array vd t') /\ wf_owned vd t' /\ a_shape t' = a_shape t /\
        (forall y, in_box b' e' y -> aread vd t' y = restored vd m <$> aread vd a (vadd b (vsub y b'))) /\
        (forall y, in_shape (a_shape t) y -> ~ in_box b' e' y -> aread vd t' y = aread vd t y).
Proof.
  intros Hm Hwf Hw Hbe Hes Hsz Hrun. pose proof (wf_owned_wf _ _ Hwf) as Hwfa.
  assert (wf vd (aview a b e)) as Hwfv by (by apply aview_wf).
  assert (words_ok (aview a b e)) as Hwv by done.
  destruct (aelements_lists vd _ Hwfv) as (els & Hael & Hels).
  destruct (indexed_elements_spec vd _ Hwfv) as (els' & Hiel & Hels').
  assert (els' = els) as -> by (by eapply lists_box_unique). clear Hels'.
  pose proof (lists_box_proper _ _ _ Hwfv Hwv Hels) as Hprop.
  destruct Hels as [Hlen Hrd]. cbn [aview a_shape] in Hlen, Hrd. fold (vsub e b) in Hlen, Hrd.
  assert (length els * vd <= nullsup_buflen (volume (vsub e b)) vd)%nat as Hb1.
  { rewrite Hlen. unfold nullsup_buflen. lia. }
  assert (forall t b' e', wf_owned vd t -> Forall2 le b' e' -> Forall2 le e' (a_shape t) -> vsub e' b' = vsub e b ->
    exists t', store_chunk vd t (b', e') (restored vd m <$> els) = Some t' /\ (api_array vd t -> api_array vd t') /\ wf_owned vd t' /\ a_shape t' = a_shape t /\
        (forall y, in_box b' e' y -> aread vd t' y = restored vd m <$> aread vd a (vadd b (vsub y b'))) /\
        (forall y, in_shape (a_shape t) y -> ~ in_box b' e' y -> aread vd t' y = aread vd t y)) as Hstore.
  { intros t b' e' Ht H1 H2 Heq. destruct (store_chunk_spec vd t b' e' (restored vd m <$> els)) as (t' & Hs & Hat & Hwt & Hsh & Hin & Hout); auto.
    { rewrite fmap_length, Hlen. by rewrite Heq. }
    { rewrite Forall_fmap. eapply list.Forall_impl; [exact Hprop|]. intros v [Hv _]. cbn. destruct m; [done|done|by apply canon_length]. }
    exists t'. split_and!; auto. intros y Hy. rewrite Hin by done. rewrite list_lookup_fmap. f_equal. rewrite Heq.
    destruct (in_box_local _ _ _ Hy) as [Hl _]. rewrite Heq in Hl. rewrite Hrd by done. by apply aview_read. }
  unfold ser_chunk. cbn [fst snd]. destruct m; [done| |].
  - rewrite Hael. cbn [mbind option_bind fst snd]. rewrite (dense_length vd els) by done.
    fold (vsub e b). unfold compute_volume. rewrite number_elements_volume, <- Hlen, Nat.leb_refl.
    eexists. split; [done|]. intros t b' e' rest Ht H1 H2 Heq.
    destruct (Hstore t b' e') as (t' & Hs & Hrest); auto. exists t'. split; [|done].
    unfold deser_chunk. rewrite <- app_assoc, dec_enc_chunk_meta by lia. cbn [mbind option_bind].
    rewrite <- (dense_length vd els) by done. rewrite read_buffer_app by apply dense_words. cbn [mbind option_bind fst snd].
    fold (vsub e' b'). rewrite number_elements_volume, Heq, <- Hlen.
    pose proof (dense_roundtrip vd els [] Hprop) as Hdr. rewrite app_nil_r in Hdr. rewrite Hdr. cbn [mbind option_bind length Nat.eqb].
    unfold restored in Hs. rewrite list_fmap_id in Hs. rewrite Hs. done.
  - rewrite Hiel. cbn [mbind option_bind fst snd]. fold (vsub e b). rewrite number_elements_volume, <- Hlen.
    pose proof (C11_buffer_bound_sufficient vd els Hprop) as Hbuf. rewrite <- Hlen in Hsz.
    destruct (Nat.leb_spec (length (suppress_null vd els)) (nullsup_buflen (length els) vd)) as [_|]; [|lia].
    eexists. split; [done|]. intros t b' e' rest Ht H1 H2 Heq.
    destruct (Hstore t b' e') as (t' & Hs & Hrest); auto. exists t'. split; [|done].
    unfold deser_chunk. rewrite <- app_assoc, dec_enc_chunk_meta by lia. cbn [mbind option_bind].
    rewrite read_buffer_app by (rewrite suppress_enc_rest; apply enc_rest_words). cbn [mbind option_bind fst snd].
    fold (vsub e' b'). rewrite number_elements_volume, Heq, <- Hlen. unfold desuppress_null.
    rewrite suppress_enc_rest.
    pose proof (nullsup_roundtrip vd els [] Hprop) as Hdr. rewrite app_nil_r in Hdr.
    rewrite Hdr by (apply null_runs_below_length; rewrite Hlen; auto). cbn [mbind option_bind length Nat.eqb].
    change (restored vd NullSuppressed) with (canon vd) in Hs. rewrite Hs. done.
Qed.

(** * All chunks *)
Definition box_of {A} := @id A.
Lemma mjoin_cons' {A} (x : list A) l : mjoin (x :: l) = x ++ mjoin l.
Proof. done. Qed.
(** [cl]: boxes in the source array, [cl']: the same boxes displaced by [off] in the target. *)
Lemma ser_deser_chunks vd m (a : ndarr N) cl :
  m <> Automatic -> wf_owned vd a -> words_ok a ->
  Forall (fun c => Forall2 le c.1 c.2 /\ Forall2 le c.2 (a_shape a) /\
     (N.of_nat (nullsup_buflen (volume (vsub c.2 c.1)) vd) < 2 ^ 64)%N /\
     (m = NullSuppressed -> N.of_nat (volume (vsub c.2 c.1)) < 2 ^ 32)%N) cl ->
  exists bs, mapM (ser_chunk vd m a) cl = Some bs /\
    forall t off rest, wf_owned vd t -> length off = length (a_shape a) -> disjoint_boxes cl ->
      Forall (fun c => Forall2 le (vadd off c.2) (a_shape t)) cl ->
      exists t', foldM (deser_chunk vd) (t, mjoin bs ++ rest) ((fun c => (vadd off c.1, vadd off c.2)) <$> cl) = Some (t', rest) /\
        (api_array vd t -> api_array vd t') /\ wf_owned vd t' /\ a_shape t' = a_shape t /\
        (forall c x, c ∈ cl -> in_box c.1 c.2 x -> aread vd t' (vadd off x) = restored vd m <$> aread vd a x) /\
        (forall y, in_shape (a_shape t) y -> (forall c, c ∈ cl -> ~ in_box (vadd off c.1) (vadd off c.2) y) -> aread vd t' y = aread vd t y).
Proof.
  intros Hm Hwf Hw Hcl. induction Hcl as [|[b e] cl (H1 & H2 & H3 & H4) Hcl IH].
  - exists []. split; [done|]. intros t off rest Ht Hl Hd Hf. exists t. split_and!; auto. intros c x Hc. by apply elem_of_nil in Hc.
  - destruct IH as (bs & Hbs & IH). cbn [fst snd] in *.
    destruct (ser_deser_chunk vd m a b e) as (b1 & Hb1 & Hdc); auto.
    exists (b1 :: bs). split. { cbn [mapM]. rewrite Hb1. cbn [mbind option_bind]. by rewrite Hbs. }
    intros t off rest Ht Hl Hd Hf. apply list.Forall_cons in Hf as [Hf1 Hf]. cbn [fst snd] in Hf1.
    pose proof (Forall2_length _ _ _ H1) as L1. pose proof (Forall2_length _ _ _ H2) as L2.
    assert (forall b e, length off = length b -> Forall2 le b e -> Forall2 le (vadd off b) (vadd off e)) as Hmono.
    { clear. intros b e Hl Hbe. revert off Hl; induction Hbe as [|b0 e0 b e H0 Hbe IH]; intros [|o off] Hl; simpl in *; try lia; [constructor|].
      constructor; [lia|]. apply IH. lia. }
    assert (vsub (vadd off e) (vadd off b) = vsub e b) as Hext.
    { clear -L1 L2 Hl. assert (length off = length b) as Hl' by lia. clear Hl L2. revert e off L1 Hl'; induction b as [|b0 b IH]; intros [|e0 e] [|o off] L1 Hl; simpl in *; try lia; [done|].
      unfold vsub, vadd in *. simpl. f_equal; [lia|]. apply IH; lia. }
    destruct (Hdc t (vadd off b) (vadd off e) (mjoin bs ++ rest)) as (t1 & Ht1 & Hat1 & Hwt1 & Hsh1 & Hin1 & Hout1); auto.
    { apply Hmono; [lia|done]. }
    destruct (IH t1 off rest) as (t' & Ht' & Hat' & Hwt' & Hsh' & Hin' & Hout'); auto.
    { intros k k' c c' x Hk Hk' Hx Hx'. specialize (Hd (S k) (S k') c c' x Hk Hk' Hx Hx'). lia. }
    { rewrite Hsh1. done. }
    exists t'. rewrite fmap_cons, mjoin_cons. cbn [foldM]. rewrite <- app_assoc. cbn [fst snd]. rewrite Ht1. cbn [mbind option_bind].
    split; [exact Ht'|]. split; [auto|]. split; [done|]. split; [congruence|]. split.
    + intros c x Hc Hx. apply elem_of_cons in Hc as [->|Hc]; [|by eapply Hin'].
      cbn [fst snd] in Hx. pose proof (in_box_length _ _ _ Hx) as [Lx _].
      assert (in_box (vadd off b) (vadd off e) (vadd off x)) as Hx'.
      { apply in_box_forall2. apply in_box_forall2 in Hx as [Hx1 Hx2]. split; [apply Hmono; [lia|done]|].
        clear -Hx2 Hl L2. assert (length off = length e) as Hl' by lia. clear Hl L2. revert off Hl'; induction Hx2 as [|x0 e0 x e H0 Hx2 IH]; intros [|o off] Hl; simpl in *; try lia; [constructor|].
        constructor; [lia|]. apply IH. lia. }
      rewrite Hout'.
      * rewrite Hin1 by done. f_equal. f_equal.
        apply in_box_forall2 in Hx as [Hx _]. clear -Hx Hl L1 L2. assert (length off = length b) as Hl' by lia. clear Hl L1 L2.
        revert off Hl'; induction Hx as [|b0 x0 b x H0 Hx IH]; intros [|o off] Hl; simpl in *; try lia; [done|].
        unfold vsub, vadd in *. simpl. f_equal; [lia|]. apply IH. lia.
      * rewrite Hsh1. eapply in_box_in_shape; [exact Hf1|done].
      * intros c Hc Hx2. apply elem_of_list_lookup in Hc as [k Hk].
        assert (in_box c.1 c.2 x) as Hx3.
        { rewrite Forall_lookup in Hcl. destruct (Hcl k c Hk) as (Hc1 & Hc2 & _).
          pose proof (Forall2_length _ _ _ Hc1). pose proof (Forall2_length _ _ _ Hc2).
          apply in_box_forall2 in Hx2 as [Ha Hb]. apply in_box_forall2.
          assert (length off = length c.1) as Q1 by lia. assert (length off = length c.2) as Q2 by lia. assert (length off = length x) as Q3 by lia.
          clear -Ha Hb Q1 Q2 Q3. revert off x Ha Hb Q1 Q2 Q3. generalize c.1, c.2. intros u. induction u as [|u0 u IHu]; intros [|w0 w] [|o off] [|x0 x] Ha Hb Q1 Q2 Q3; simpl in *; try lia; [by split; constructor|].
          inversion Ha; inversion Hb; subst. destruct (IHu w off x) as [? ?]; auto; try lia. split; constructor; auto; lia. }
        specialize (Hd 0%nat (S k) (b, e) c x eq_refl Hk Hx Hx3). lia.
    + intros y Hy Hno. rewrite Hout'.
      * apply Hout1; [done|]. apply (Hno (b, e)). left.
      * by rewrite Hsh1.
      * intros c Hc. apply Hno. by right.
Qed.
