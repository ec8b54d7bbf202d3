From stdpp Require Import base list list_numbers numbers option.
From Verif Require Import IndexSpec LoopsModel LoopsProofs NDArrayModel NDArrayProofs NDArrayOps NDArrayOps2.
From Coq Require Import Lia.

Lemma block_replicate {A} vd k n (v : A) : (k * vd + vd <= n * vd)%nat -> forall c, (c < vd)%nat ->
  replicate (n * vd) v !! (k * vd + c)%nat = Some v.
Proof. intros H c Hc. rewrite lookup_replicate. split; [done|]. lia. Qed.

Lemma afill_spec {A} vd (a : ndarr A) s e v :
  wf_owned vd a -> Forall2 lt s e -> Forall2 le e (a_shape a) ->
  exists a', afill vd a s e v = Some a' /\ wf_owned vd a' /\ a_shape a' = a_shape a /\
    forall y, in_shape (a_shape a) y ->
      aread vd a' y = if decide (in_box s e y) then Some (replicate vd v) else aread vd a y.
Proof.
  intros Hwf Hlt Hle. pose proof Hwf as (Hne & Hwfr).
  pose proof (Forall2_length _ _ _ Hlt) as L1. pose proof (Forall2_length _ _ _ Hle) as L2.
  unfold afill. rewrite (proj2 (has_index_true _ _) (Forall2_lt_le_in_shape _ _ _ Hlt Hle)).
  rewrite (Forall2_lt_le_has_end _ _ _ Hlt Hle). cbn [andb].
  destruct (list_snoc (a_shape a)) as (psh & sl & Hsh); [done|].
  rewrite Hsh in *. rewrite app_length in L2. simpl in L2.
  destruct (list_snoc s) as (ps & s0 & ->); [intros ->; simpl in *; lia|].
  destruct (list_snoc e) as (pe & e0 & ->); [intros ->; simpl in *; lia|].
  rewrite !app_length in *. simpl in *.
  rewrite Forall2_snoc in Hlt by lia. destruct Hlt as [Hltp Hlt0].
  rewrite Forall2_snoc in Hle by lia. destruct Hle as [Hlep Hle0].
  rewrite !vlast_app. unfold row_chunk. rewrite ?app_length. simpl.
  replace (length psh + 1 - 1)%nat with (length ps) by lia.
  rewrite chunk_loop_rows by (auto; lia). cbn [mbind option_bind].
  unfold rows. destruct (Nat.ltb_spec s0 e0) as [_|?]; [|lia].
  set (n := (e0 - s0)%nat) in *.
  set (qs := box_elems ps pe).
  rewrite (foldM_map (fun d o => set_block d o.1 o.2)
    (fun c : list nat * list nat => (flat_ind (a_strides a) (a_off a) c.1, replicate (n * vd) v))).
  rewrite <- list_fmap_compose.
  set (ws := _ <$> qs).
  assert (ws = ((fun q => (flat_ind (a_strides a) (a_off a) (q ++ [s0]), (fun _ => replicate (n * vd) v) q)) <$> qs)) as -> by reflexivity.
  destruct (rows_write vd a psh sl qs s0 n (fun _ => replicate (n * vd) v)) as (d & Hd & Hdl & Hval); auto; try lia.
  { intros q Hq%elem_of_box_elems. apply in_shape_forall2. apply in_box_forall2 in Hq as [_ Hq].
    by eapply Forall2_lt_le_trans. }
  { intros. by rewrite replicate_length. }
  rewrite Hd. simpl. eexists. split; [done|].
  assert (wf_owned vd (NDArr (psh ++ [sl]) (a_strides a) (a_off a) d (a_owns a))) as Hwf'.
  { destruct Hwfr as (? & ? & ? & ?). unfold wf_owned; simpl. rewrite Hdl, <- Hsh. auto. }
  split_and!; auto.
  intros y Hy. pose proof (in_shape_length _ _ Hy) as Hly. rewrite app_length in Hly. simpl in Hly.
  destruct (list_snoc y) as (yp & y0 & ->); [intros ->; simpl in Hly; lia|].
  rewrite app_length in Hly. simpl in Hly.
  pose proof Hy as Hy'. rewrite in_shape_snoc in Hy' by lia. destruct Hy' as [Hyp Hy0].
  specialize (Hval yp y0 Hyp Hy0).
  assert (in_box (ps ++ [s0]) (pe ++ [e0]) (yp ++ [y0]) <-> yp ∈ qs /\ (s0 <= y0 < s0 + n)%nat) as Hiff.
  { rewrite in_box_snoc by lia. unfold qs. rewrite elem_of_box_elems. subst n. split; intros [? ?]; (split; [done|lia]). }
  destruct (decide (in_box _ _ _)) as [Hb|Hb].
  - apply Hiff in Hb.
    destruct (aread_Some vd (NDArr (psh ++ [sl]) (a_strides a) (a_off a) d (a_owns a)) (yp ++ [y0])) as (w & Hw & Hlw); [by apply wf_owned_wf|done|].
    rewrite Hw. f_equal. rewrite aread_eq in Hw by done. apply block_lookup in Hw as [_ Hw]. cbn [a_data a_strides a_off] in Hw.
    apply list_eq. intros c. destruct (decide (c < vd)%nat) as [Hc|Hc].
    + rewrite Hw, Hval by done. rewrite decide_True by done.
      rewrite block_replicate; [by rewrite lookup_replicate_2| |done].
      assert ((y0 - s0 + 1) * vd <= n * vd)%nat by (apply Nat.mul_le_mono_r; lia). lia.
    + rewrite !lookup_ge_None_2; [done|rewrite replicate_length; lia|lia].
  - apply aread_ext; [by apply wf_owned_wf|by apply wf_owned_wf|done|by rewrite Hsh|].
    intros c Hc. cbn [a_data a_strides a_off]. rewrite Hval by done. rewrite decide_False by tauto. done.
Qed.

(** The 1-d column variant of fill_from. *)
Lemma afill_col_spec {A} vd (this other : ndarr A) pos o n psh s :
  wf_owned vd this -> wf_owned vd other -> a_shape this = psh ++ [s] -> a_shape other = [n] ->
  (0 < n)%nat -> in_shape psh pos -> (o + n <= s)%nat ->
  exists this', afill_col vd this other (pos ++ [o]) = Some this' /\ wf_owned vd this' /\
    a_shape this' = a_shape this /\
    forall q y, in_shape psh q -> (y < s)%nat ->
      aread vd this' (q ++ [y]) = if decide (q = pos /\ (o <= y < o + n)%nat)
                                  then aread vd other [(y - o)%nat] else aread vd this (q ++ [y]).
Proof.
  intros Hwf Hwfo Hsh Hosh Hn Hpos Hle. pose proof (in_shape_length _ _ Hpos) as Hlp.
  pose proof Hwf as (Hne & Hst & Hoff & Hlen & Hown). pose proof Hwfo as (_ & Hsto & Hoffo & Hleno & Howno).
  unfold afill_col. rewrite Hown, Howno, Hosh. cbn [andb vlast List.last].
  destruct (Nat.leb_spec 1 n) as [_|]; [|lia]. cbn [andb].
  rewrite (proj2 (has_index_true (a_shape this) (pos ++ [o]))) by (rewrite Hsh; apply in_shape_snoc; [done|split; [done|lia]]).
  rewrite removelast_last, vlast_app.
  rewrite (proj2 (has_index_true (a_shape this) (pos ++ [(o + n - 1)%nat]))) by (rewrite Hsh; apply in_shape_snoc; [done|split; [done|lia]]).
  cbn [andb].
  assert (length (a_data other) = n * vd)%nat as Lo.
  { rewrite Hleno. unfold compute_volume. rewrite number_elements_volume, Hosh. simpl. lia. }
  unfold copy_n, block. destruct (Nat.leb_spec (0 + vd * n) (length (a_data other))) as [_|]; [|lia].
  cbn [mbind option_bind]. rewrite drop_0, take_ge by lia.
  set (f := fun _ : list nat => a_data other).
  destruct (rows_write vd this psh s [pos] o n f) as (d & Hd & Hdl & Hval); auto; try lia.
  { intros q ->%elem_of_list_singleton. done. }
  cbn in Hd. destruct (set_block (a_data this) _ _) as [d'|] eqn:Hd'; [|done]. cbn in Hd. injection Hd as ->.
  cbn [mbind option_bind]. eexists. split; [done|].
  set (R := NDArr _ _ _ _ _).
  assert (wf_owned vd R) as Hwf'.
  { unfold wf_owned, R; simpl. rewrite Hdl. auto. }
  split_and!; auto. intros q y Hq Hy. pose proof (in_shape_length _ _ Hq) as Hlq.
  assert (in_shape (a_shape this) (q ++ [y])) as Hin by (rewrite Hsh; apply in_shape_snoc; done).
  specialize (Hval q y Hq Hy).
  destruct (decide (q = pos /\ (o <= y < o + n)%nat)) as [[-> Hr]|Hno].
  - apply aread_ext; [by apply wf_owned_wf|by apply wf_owned_wf|done|rewrite Hosh; simpl; split; [lia|done]|].
    intros c Hc. cbn [a_data a_strides a_off R]. rewrite Hval by done. rewrite decide_True by (by rewrite elem_of_list_singleton).
    unfold f. f_equal. rewrite (wf_owned_flat vd other) by (rewrite ?Hosh; done). rewrite Hosh. simpl. lia.
  - apply aread_ext; [by apply wf_owned_wf|by apply wf_owned_wf|done|done|].
    intros c Hc. cbn [a_data a_strides a_off R]. rewrite Hval by done. rewrite decide_False by (by rewrite elem_of_list_singleton). done.
Qed.
