(** C36 (downsampling commutes with chunking) and C37 (padding survives downsampling). *)
From stdpp Require Import base list list_numbers numbers option.
From Coq Require Import NArith Lia.
From Verif Require Import IndexSpec LoopsModel LoopsProofs NDArrayModel NDArrayProofs NDArrayOps NDArrayOps2 NDArrayProps
  BBoxModel BBoxProps DownsampleModel.

(** * Specification *)
(** [k] is an output position of the region that starts at [s] and has extent [sh] when every [d]-th
    sample is kept: [k*d] lies in the region. *)
Fixpoint on_grid (s : list N) (sh : list nat) (d k : list N) : Prop :=
  match s, sh, d, k with
  | [], [], [], [] => True
  | s0 :: s', n :: sh', d0 :: d', k0 :: k' => (s0 <= k0 * d0 < s0 + N.of_nat n)%N /\ on_grid s' sh' d' k'
  | _, _, _, _ => False
  end.
(** The region fits into the index type, does not consist of nothing at the origin, and the factor is positive. *)
Fixpoint region_ok (s : list N) (sh : list nat) (d : list N) : Prop :=
  match s, sh, d with
  | [], [], [] => True
  | s0 :: s', n :: sh', d0 :: d' =>
      (0 < d0 /\ s0 + d0 < W /\ 0 < s0 + N.of_nat n < W)%N /\ region_ok s' sh' d'
  | _, _, _ => False
  end.
(** [b <= x] component-wise and [x - b] is a valid index of an array with shape [sh]; its value there. *)
Definition at_pos (b : list N) (x : list N) : list nat := vto_nat (zip_with N.sub x b).
Definition placed (b : list N) (sh : list nat) (x : list N) : Prop :=
  Forall2 N.le b x /\ in_shape sh (at_pos b x).
(** The sample of output position [k]. *)
Definition times (k d : list N) : list N := zip_with N.mul k d.

(** * One axis *)
Lemma ds_axis s n d k :
  (0 < d /\ s + d < W /\ 0 < s + n < W)%N ->
  let f := (wsub (wadd s d) 1 / d)%N in let l := wadd (wsub (wadd s n) 1 / d) 1 in
  (f <= l)%N /\ (l <= W)%N /\ (f < W)%N /\ wsub (N.max l f) f = (l - f)%N /\ (l < W)%N /\
  (f <= k < l <-> s <= k * d < s + n)%N.
Proof.
  intros (Hd & Hsd & Hsn). cbv zeta.
  assert (W = 18446744073709551616)%N as HW by reflexivity.
  replace (wadd s d) with (s + d)%N by (unfold wadd; rewrite N.mod_small; lia). rewrite !(wsub_le (s + d)) by lia.
  replace (wadd s n) with (s + n)%N by (unfold wadd; rewrite N.mod_small; lia). rewrite !(wsub_le (s + n)) by lia.
  set (q := ((s + n - 1) / d)%N). set (f := ((s + d - 1) / d)%N).
  pose proof (N.div_mod (s + n - 1) d ltac:(lia)) as E1. pose proof (N.mod_lt (s + n - 1) d ltac:(lia)) as B1.
  pose proof (N.div_mod (s + d - 1) d ltac:(lia)) as E2. pose proof (N.mod_lt (s + d - 1) d ltac:(lia)) as B2.
  fold q in E1. fold f in E2. set (r1 := ((s + n - 1) mod d)%N) in *. set (r2 := ((s + d - 1) mod d)%N) in *.
  assert (q < s + n)%N as Hq by nia.
  assert (wadd q 1 = q + 1 \/ q + 1 = W)%N as Hw.
  { destruct (N.eq_dec (q + 1) W); [by right|left]. unfold wadd. apply N.mod_small. lia. }
  assert (q + 1 < W)%N as Hq1.
  { lia. }
  destruct Hw as [Hw|Hw]; [|lia]. rewrite Hw. 
  assert (f <= q + 1)%N.
  { destruct (N.le_gt_cases f (q + 1)); [done|]. exfalso. assert (f * d >= (q + 2) * d)%N by nia. nia. }
  assert (f <= s + d - 1)%N by nia.
  rewrite N.max_l by lia. rewrite wsub_le by lia. split_and!; try lia.
  split; intros [H1 H2]; nia.
Qed.

Lemma on_grid_length s sh d k : on_grid s sh d k -> length s = length k /\ length sh = length k /\ length d = length k.
Proof.
  revert sh d k; induction s; intros [|] [|] [|]; simpl; try tauto. intros [_ H]. apply IHs in H. lia.
Qed.
Lemma region_ok_length s sh d : region_ok s sh d -> length sh = length s /\ length d = length s.
Proof. revert sh d; induction s; intros [|] [|]; simpl; try tauto. intros [_ H]. apply IHs in H. lia. Qed.

Lemma ds_first_cons s0 s d0 d : ds_first (s0 :: s) (d0 :: d) = (wsub (wadd s0 d0) 1 / d0)%N :: ds_first s d.
Proof. done. Qed.
Lemma ds_last_cons s0 s d0 d : ds_last (s0 :: s) (d0 :: d) = wadd (wsub s0 1 / d0) 1 :: ds_last s d.
Proof. done. Qed.
Lemma ds_shape_cons s0 s d0 d : ds_shape (s0 :: s) (d0 :: d) = wsub (N.max d0 s0) s0 :: ds_shape s d.
Proof. done. Qed.
Lemma ds_region s sh d :
  region_ok s sh d ->
  let f := ds_first s d in let l := ds_last (vwadd s (vof_nat sh)) d in
  length f = length s /\ length l = length s /\ ds_shape f l = zip_with N.sub l f /\
  Forall2 N.le f l /\
  (forall k, on_grid s sh d k <-> Forall2 N.le f k /\ Forall2 N.lt k l) /\ Forall (fun x => x < W)%N f.
Proof.
  cbv zeta. revert sh d; induction s as [|s0 s IH]; intros [|n sh] [|d0 d]; cbn [region_ok]; try tauto.
  - intros _. change (ds_first [] []) with (@nil N). change (ds_last (vwadd [] (vof_nat [])) []) with (@nil N).
    split_and!; auto. intros [|k0 k]; split; simpl; auto; [tauto|intros [H _]; by apply Forall2_nil_inv_l in H].
  - intros [Hok Hr]. destruct (IH _ _ Hr) as (H1 & H2 & H3 & H4 & H5 & H6).
    change (vwadd (s0 :: s) (vof_nat (n :: sh))) with (wadd s0 (N.of_nat n) :: vwadd s (vof_nat sh)).
    rewrite ds_first_cons, ds_last_cons, ds_shape_cons. cbn [length zip_with on_grid].
    pose proof (fun k => ds_axis s0 (N.of_nat n) d0 k Hok) as Hax. cbv zeta in Hax.
    destruct (Hax 0%N) as (A1 & A2 & A3 & A4 & A5 & _).
    split_and!.
    + by rewrite H1.
    + by rewrite H2.
    + by rewrite A4, H3.
    + by constructor.
    + intros [|k0 k]; split; try tauto; try (by intros [?%Forall2_nil_inv_r _]).
      * intros [Hk0 Hk]. apply H5 in Hk as [? ?]. destruct (Hax k0) as (_ & _ & _ & _ & _ & Hi). apply Hi in Hk0 as [? ?]. split; by constructor.
      * intros [[? ?]%Forall2_cons_1 [? ?]%Forall2_cons_1]. destruct (Hax k0) as (_ & _ & _ & _ & _ & Hi). split; [by apply Hi|by apply H5].
    + by constructor.
Qed.

(** * Conversions between size_t vectors and nat vectors *)
Lemma in_box_to_nat f l k : in_box (vto_nat f) (vto_nat l) k <-> Forall2 N.le f (vof_nat k) /\ Forall2 N.lt (vof_nat k) l.
Proof.
  unfold vto_nat, vof_nat. rewrite in_box_forall2. rewrite Forall2_fmap_l, !Forall2_fmap_r, Forall2_fmap_l.
  split; intros [H1 H2]; split; eapply Forall2_impl; eauto; simpl; lia.
Qed.

Lemma in_shape_placed f l k :
  length f = length l -> Forall2 N.le f k ->
  in_shape (vto_nat (zip_with N.sub l f)) (at_pos f k) <-> Forall2 N.lt k l.
Proof.
  unfold at_pos, vto_nat. rewrite in_shape_forall2, Forall2_fmap.
  revert l k; induction f as [|f0 f IH]; intros [|l0 l] k Hl Hk; try done.
  - apply Forall2_nil_inv_l in Hk as ->. simpl. split; auto.
  - apply Forall2_cons_inv_l in Hk as (k0 & k' & H0 & H1 & ->). simpl.
    assert (length f = length l) as Hl' by (simpl in Hl; lia). specialize (IH l k' Hl' H1).
    split; intros [H2 H3]%Forall2_cons_1; constructor; try tauto; lia.
Qed.

Lemma vto_of v : vto_nat (vof_nat v) = v.
Proof. unfold vto_nat, vof_nat. rewrite <- list_fmap_compose. rewrite <- (list_fmap_id v) at 2. apply list_fmap_ext. intros. simpl. apply Nat2N.id. Qed.
Lemma vof_to v : vof_nat (vto_nat v) = v.
Proof. unfold vto_nat, vof_nat. rewrite <- list_fmap_compose. rewrite <- (list_fmap_id v) at 2. apply list_fmap_ext. intros. simpl. apply N2Nat.id. Qed.

Lemma vwsub_le f k : Forall2 N.le f k -> Forall (fun x => x < W)%N k -> vwsub k f = zip_with N.sub k f.
Proof.
  intros H. induction H as [|f0 k0 f k H0 H IH]; [done|]. intros [Hk Hks]%list.Forall_cons. unfold vwsub in *. simpl.
  rewrite wsub_le by lia. by rewrite IH.
Qed.

Lemma grid_src s sh d k : region_ok s sh d -> on_grid s sh d k ->
  vwsub (vwmul k d) s = zip_with N.sub (times k d) s /\ Forall2 N.le s (times k d) /\ in_shape sh (at_pos s (times k d)).
Proof.
  unfold vwsub, vwmul, times, at_pos. 
  revert sh d k; induction s as [|s0 s IH]; intros [|n sh] [|d0 d] [|k0 k]; simpl; try tauto.
  - intros _ _. split_and!; auto. done.
  - intros [Ho Hr] [Hk Hks]. destruct (IH _ _ _ Hr Hks) as (H1 & H2 & H3). rewrite H1. split_and!.
    + f_equal. unfold wmul. rewrite N.mod_small by lia. rewrite wsub_le by lia. done.
    + constructor; [lia|done].
    + apply in_shape_cons. eexists _, _. split; [reflexivity|]. split; [lia|done].
Qed.

(** ** The loop keeps the output an API array. *)
Lemma foldM_api {A B} vd (f : ndarr A -> B -> option (ndarr A)) l :
  (forall a a' b, api_array vd a -> f a b = Some a' -> api_array vd a') ->
  forall a a', api_array vd a -> foldM f a l = Some a' -> api_array vd a'.
Proof.
  intros Hf. induction l as [|b l IH]; simpl; intros a a' Ha Heq; [congruence|].
  destruct (f a b) as [a1|] eqn:E; [|done]. simpl in Heq. eauto.
Qed.

(** * C36 *)
(** Output element [k] is input element [k*d]; the output consists of exactly those [k]. *)
Theorem C36_downsample_keeps_every_dth_sample {A} vd (junk : A) src dst start d :
  api_array vd src -> api_array vd dst -> region_ok start (a_shape src) d ->
  exists out os, downsample vd junk src start d dst = Some (out, os) /\ api_array vd out /\
    vof_nat (a_shape out) = get_downsampled_shape start (vof_nat (a_shape src)) d /\
    (forall k, on_grid start (a_shape src) d k <-> placed os (a_shape out) k) /\
    (forall k, on_grid start (a_shape src) d k ->
       placed start (a_shape src) (times k d) /\
       aread vd out (at_pos os k) = aread vd src (at_pos start (times k d))).
Proof.
  intros Hsrc Hdst Hok. pose proof (api_array_wf _ _ Hsrc) as Hws. pose proof (api_array_wf _ _ Hdst) as Hwd.
  destruct (ds_region _ _ _ Hok) as (L1 & L2 & Hsh & Hle & Hgrid & HfW).
  destruct (region_ok_length _ _ _ Hok) as [Ls Ld].
  unfold downsample. cbv zeta. set (f := ds_first start d) in *. set (l := ds_last _ d) in *.
  destruct (aresize vd junk (vto_nat (ds_shape f l)) dst) as [t|] eqn:Ht.
  2:{ unfold aresize in Ht. destruct Hwd as (_ & _ & _ & _ & Hown). by rewrite Hown in Ht. }
  assert (vto_nat (ds_shape f l) <> []) as Hne.
  { destruct Hws as [Hne _]. rewrite Hsh. intros E. apply (f_equal length) in E. unfold vto_nat in E.
    rewrite fmap_length, zip_with_length in E. destruct (a_shape src); [done|]. simpl in *. lia. }
  pose proof (api_resize vd junk _ _ _ Hne Hdst Ht) as Htapi.
  apply aresize_wf in Ht as [Hwt Hst]; [|done]. cbn [mbind option_bind].
  rewrite elem_loop_spec; [|unfold vto_nat; rewrite !fmap_length; congruence|done]. cbn [mbind option_bind].
  set (ks := box_elems _ _).
  set (dest := fun k => at_pos f (vof_nat k)).
  set (val := fun k => default [] (aread vd src (at_pos start (times (vof_nat k) d)))).
  assert (forall k, k ∈ ks -> on_grid start (a_shape src) d (vof_nat k)) as Hks.
  { intros k Hk%elem_of_box_elems. apply in_box_to_nat in Hk. by apply Hgrid. }
  assert (forall k, k ∈ ks -> in_shape (a_shape t) (dest k)) as Hdest.
  { intros k Hk%Hks%Hgrid. destruct Hk as [Hk1 Hk2]. unfold dest. rewrite Hst, Hsh. apply in_shape_placed; auto. congruence. }
  assert (forall k, k ∈ ks -> aread vd src (at_pos start (times (vof_nat k) d)) = Some (val k) /\ length (val k) = vd) as Hval.
  { intros k Hk%Hks. destruct (grid_src _ _ _ _ Hok Hk) as (_ & _ & Hin). unfold val.
    destruct (aread_Some vd src _ (wf_owned_wf _ _ Hws) Hin) as (v & -> & ?). done. }
  assert (forall k, k ∈ ks -> vto_nat (vwsub (vof_nat k) f) = dest k /\
            vto_nat (vwsub (vwmul (vof_nat k) d) start) = at_pos start (times (vof_nat k) d)) as Hidx.
  { intros k Hk%Hks. destruct (grid_src _ _ _ _ Hok Hk) as (E & _ & _). rewrite E. split; [|done].
    apply Hgrid in Hk as [Hk1 Hk2]. unfold dest, at_pos. rewrite vwsub_le; [done|done|].
    apply list.Forall_forall. intros x Hx. apply elem_of_list_lookup in Hx as [i Hi].
    destruct (Forall2_lookup_l _ _ _ _ _ Hk2 Hi) as (y & Hy & Hlt).
    assert (y <= W - 1)%N; [|unfold W in *; lia].
    subst l. unfold ds_last in Hy. apply list_lookup_fmap_Some in Hy as (z & _ & ->). unfold wadd.
    pose proof (N.mod_lt (z + 1) W ltac:(done)). lia. }
  destruct (foldM_awrite vd ((fun k => (dest k, val k)) <$> ks) t) as (out & Hout & Hwo & Hso & Hro & _).
  { done. }
  { rewrite <- list_fmap_compose. apply NoDup_fmap_2_strong; [|apply box_elems_NoDup].
    intros x y Hx Hy Heq. simpl in Heq. apply Hks, Hgrid in Hx as [Hx _]. apply Hks, Hgrid in Hy as [Hy _].
    unfold dest, at_pos, vto_nat in Heq.
    apply (f_equal vof_nat) in Heq. change (vof_nat (vto_nat (zip_with N.sub (vof_nat x) f)) = vof_nat (vto_nat (zip_with N.sub (vof_nat y) f))) in Heq.
    rewrite !vof_to in Heq. rewrite <- (vto_of x), <- (vto_of y). f_equal.
    clear -Hx Hy Heq. revert Hx Hy Heq. generalize (vof_nat x) as u, (vof_nat y) as v. intros u v Hu.
    revert v. induction Hu as [|f0 u0 f u H0 Hu IH]; intros v Hv.
    - by apply Forall2_nil_inv_l in Hv as ->.
    - apply Forall2_cons_inv_l in Hv as (v0 & v' & H1 & Hv & ->). simpl. intros [= ? ?]. f_equal; [lia|auto]. }
  { intros w Hw. apply elem_of_list_fmap in Hw as (k & -> & Hk). simpl. split; [by apply Hdest|by apply Hval]. }
  assert (foldM (fun (a : ndarr A) k =>
           if has_index (a_shape a) (vto_nat (vwsub (vof_nat k) f)) && has_index (a_shape src) (vto_nat (vwsub (vwmul (vof_nat k) d) start))
           then v ← aread vd src (vto_nat (vwsub (vwmul (vof_nat k) d) start)); awrite vd a (vto_nat (vwsub (vof_nat k) f)) v else None) t ks
          = Some out) as Hfold.
  { rewrite <- Hout. rewrite <- (foldM_map (fun d w => awrite vd d w.1 w.2) (fun k => (dest k, val k))).
    apply foldM_ext_in. intros a k Hk. destruct (Hidx _ Hk) as [-> ->]. destruct (Hval _ Hk) as [Hv _]. rewrite Hv. simpl.
    destruct (has_index (a_shape a) (dest k)) eqn:Hh.
    - assert (has_index (a_shape src) (at_pos start (times (vof_nat k) d)) = true) as ->; [|done].
      unfold aread in Hv. by destruct (has_index _ _).
    - unfold awrite. by rewrite Hh. }
  exists out, f. rewrite Hfold. cbn [mbind option_bind].
  assert (api_array vd out) as Hoapi.
  { revert Hfold. apply (foldM_api vd); [|done]. intros a a' k Ha. destruct (_ && _); [|done].
    destruct (aread vd src _); [|done]. simpl. intros. by eapply api_write. }
  assert (forall k, on_grid start (a_shape src) d k <-> placed f (a_shape out) k) as Hpl.
  { intros k. rewrite Hgrid, Hso, Hst, Hsh. unfold placed. split.
    - intros [H1 H2]. split; [done|]. apply in_shape_placed; auto. congruence.
    - intros [H1 H2]. split; [done|]. apply in_shape_placed in H2; auto. congruence. }
  split_and!; auto.
  - rewrite Hso, Hst, vof_to. done.
  - intros k Hk. destruct (grid_src _ _ _ _ Hok Hk) as (_ & P1 & P2). split; [done|].
    assert (vto_nat k ∈ ks) as Hin.
    { apply elem_of_box_elems. apply in_box_to_nat. rewrite vof_to. by apply Hgrid. }
    destruct (Hval _ Hin) as [Hv _]. rewrite vof_to in Hv. rewrite Hv.
    specialize (Hro (dest (vto_nat k), val (vto_nat k))). simpl in Hro. unfold dest in Hro. rewrite vof_to in Hro.
    apply Hro. apply elem_of_list_fmap. exists (vto_nat k). unfold dest. by rewrite vof_to.
Qed.
Print Assumptions C36_downsample_keeps_every_dth_sample.

Lemma on_grid_placed s sh d k : length d = length s -> length k = length s ->
  on_grid s sh d k <-> placed s sh (times k d).
Proof.
  intros Hd Hk. unfold placed, times, at_pos, vto_nat. revert sh d k Hd Hk.
  induction s as [|s0 s IH]; intros [|n sh] [|d0 d] [|k0 k] Hd Hk; try discriminate; cbn [on_grid zip_with].
  - split; [intros _; split; [constructor|done]|done].
  - split; [done|]. intros [_ H]. apply in_shape_cons in H. naive_solver.
  - split; [done|]. intros [_ H]. by apply in_shape_nil in H.
  - specialize (IH sh d k ltac:(simpl in *; lia) ltac:(simpl in *; lia)). rewrite fmap_cons. split.
    + intros [H0 H]. apply IH in H as [H1 H2]. split; [constructor; [lia|done]|].
      apply in_shape_cons. eexists _, _. split; [reflexivity|]. split; [lia|done].
    + intros [[H0 H1]%Forall2_cons_1 H2]. apply in_shape_cons in H2 as (x0 & x' & [= <- <-] & Hlt & Hx).
      split; [lia|]. by apply IH.
Qed.

(** A set of chunks [(position of its first element, array)] that makes up the array [whole] placed at [start]:
    the position of every element of [whole] lies in exactly one chunk, holding the same value, and the chunks
    have no elements elsewhere. *)
Definition chunks_of {A} (vd : nat) (whole : ndarr A) (start : list N) (chunks : list (list N * ndarr A)) : Prop :=
  (forall c p, c ∈ chunks -> placed c.1 (a_shape c.2) p -> placed start (a_shape whole) p /\
     aread vd c.2 (at_pos c.1 p) = aread vd whole (at_pos start p)) /\
  (forall p, placed start (a_shape whole) p -> exists i c, chunks !! i = Some c /\ placed c.1 (a_shape c.2) p /\
     forall i' c', chunks !! i' = Some c' -> placed c'.1 (a_shape c'.2) p -> i' = i).

(** Downsampling the chunks one by one (into any output buffers) gives the chunks of the downsampled array. *)
Theorem C36_downsampling_commutes_with_chunking {A} vd (junk : A) whole start d chunks dst dsts :
  api_array vd whole -> api_array vd dst -> region_ok start (a_shape whole) d ->
  Forall (fun c => api_array vd c.2 /\ region_ok c.1 (a_shape c.2) d) chunks ->
  length dsts = length chunks -> Forall (api_array vd) dsts ->
  chunks_of vd whole start chunks ->
  exists out os outs, downsample vd junk whole start d dst = Some (out, os) /\
    length outs = length chunks /\
    (forall i c b o, chunks !! i = Some c -> dsts !! i = Some b -> outs !! i = Some o ->
       downsample vd junk c.2 c.1 d b = Some (o.2, o.1)) /\
    chunks_of vd out os outs.
Proof.
  intros Hw Hdst Hok Hch Hld Hds [Hin Hex].
  destruct (C36_downsample_keeps_every_dth_sample vd junk whole dst start d) as (out & os & Heq & _ & _ & Hpos & Hval); auto.
  assert (exists outs : list (list N * ndarr A), length outs = length chunks /\
    forall i c b o, chunks !! i = Some c -> dsts !! i = Some b -> outs !! i = Some o ->
      downsample vd junk c.2 c.1 d b = Some (o.2, o.1) /\
      (forall k, on_grid c.1 (a_shape c.2) d k <-> placed o.1 (a_shape o.2) k) /\
      (forall k, on_grid c.1 (a_shape c.2) d k ->
         placed c.1 (a_shape c.2) (times k d) /\ aread vd o.2 (at_pos o.1 k) = aread vd c.2 (at_pos c.1 (times k d)))) as (outs & Hlo & Houts).
  { clear Hin Hex. revert dsts Hld Hds. induction Hch as [|c chunks [Hc1 Hc2] Hch IH]; intros [|b dsts] Hld Hds; try done.
    - exists []. split; [done|]. intros [|]; done.
    - apply list.Forall_cons in Hds as [Hb Hds]. destruct (IH dsts) as (outs & Hl & Ho); [simpl in Hld; lia|done|].
      destruct (C36_downsample_keeps_every_dth_sample vd junk c.2 b c.1 d) as (o & oos & E1 & _ & _ & E2 & E3); auto.
      exists ((oos, o) :: outs). split; [simpl; lia|]. intros [|i] c' b' o'; simpl.
      + intros [= <-] [= <-] [= <-]. simpl. auto.
      + apply Ho. }
  exists out, os, outs. split_and!; auto.
  { intros i c b o H1 H2 H3. by apply (Houts i c b o). }
  assert (forall i o, outs !! i = Some o -> exists c b, chunks !! i = Some c /\ dsts !! i = Some b) as Hlook.
  { intros i o Hi. apply lookup_lt_Some in Hi. destruct (lookup_lt_is_Some_2 chunks i ltac:(lia)) as [c Hc].
    destruct (lookup_lt_is_Some_2 dsts i ltac:(lia)) as [b Hb]. eauto. }
  destruct (region_ok_length _ _ _ Hok) as [Lsh Ld].
  assert (forall i c, chunks !! i = Some c -> length d = length c.1) as Lc.
  { intros i c Hi. eapply Forall_lookup_1 in Hch as [_ H]; [|exact Hi]. by apply region_ok_length in H as [_ ?]. }
  split.
  - intros o k Ho Hpl. apply elem_of_list_lookup in Ho as [i Hi]. destruct (Hlook _ _ Hi) as (c & b & Hc & Hb).
    destruct (Houts _ _ _ _ Hc Hb Hi) as (_ & H1 & H2). apply H1 in Hpl.
    destruct (H2 _ Hpl) as [P1 R1].
    destruct (Hin c (times k d)) as [P2 R2]; [by eapply elem_of_list_lookup_2|done|].
    assert (on_grid start (a_shape whole) d k) as Hg.
    { apply on_grid_placed; auto. apply on_grid_length in Hpl as (? & ? & ?). congruence. }
    split; [by apply Hpos|]. rewrite R1, R2. by destruct (Hval _ Hg) as [_ ->].
  - intros k Hpl. apply Hpos in Hpl. destruct (Hval _ Hpl) as [P1 _]. pose proof (on_grid_length _ _ _ _ Hpl) as (L1 & L2 & L3).
    destruct (Hex _ P1) as (i & c & Hc & Hp & Hu).
    assert (i < length outs)%nat as Hi by (rewrite Hlo; by eapply lookup_lt_Some).
    destruct (lookup_lt_is_Some_2 outs i Hi) as [o Ho]. destruct (Hlook _ _ Ho) as (c' & b & Hc' & Hb).
    assert (c' = c) as -> by congruence.
    destruct (Houts _ _ _ _ Hc Hb Ho) as (_ & H1 & H2). exists i, o. split_and!; auto.
    + apply H1. apply on_grid_placed; auto; [eauto|]. rewrite <- (Lc _ _ Hc). congruence.
    + intros i' o' Ho' Hpl'. destruct (Hlook _ _ Ho') as (c' & b' & Hc2 & Hb').
      destruct (Houts _ _ _ _ Hc2 Hb' Ho') as (_ & H1' & H2'). apply H1' in Hpl'. destruct (H2' _ Hpl') as [Hp' _].
      eapply Hu; eauto.
Qed.
Print Assumptions C36_downsampling_commutes_with_chunking.

(** A 5-sample array starting at position 1, kept at every second sample: samples 2 and 4;
    cut into the parts [1,3) and [3,6). *)
Definition ds_whole : ndarr nat := NDArr [5] [1] 0 [11; 12; 13; 14; 15] true.
Definition ds_part1 : ndarr nat := NDArr [2] [1] 0 [11; 12] true.
Definition ds_part2 : ndarr nat := NDArr [3] [1] 0 [13; 14; 15] true.
Example C36_nonvacuous :
  region_ok [1%N] (a_shape ds_whole) [2%N] /\
  downsample 1 0 ds_whole [1%N] [2%N] (anew 1 0 [1]) = Some (NDArr [2] [1] 0 [12; 14] true, [1%N]) /\
  downsample 1 0 ds_part1 [1%N] [2%N] (anew 1 0 [1]) = Some (NDArr [1] [1] 0 [12] true, [1%N]) /\
  downsample 1 0 ds_part2 [3%N] [2%N] (anew 1 0 [1]) = Some (NDArr [1] [1] 0 [14] true, [2%N]).
Proof. split; [simpl; unfold W; lia|]. split_and!; vm_compute; reflexivity. Qed.

(** For an empty region at the origin the subtraction of one wraps around: the reported shape is not empty
    (2^63 elements for a factor of two). *)
Theorem C36_empty_region_at_origin_refuted :
  exists d, (0 < d)%N /\ get_downsampled_shape [0%N] [0%N] [d] = [(W / 2)%N] /\ ~ exists k, on_grid [0%N] [0%nat] [d] [k].
Proof. exists 2%N. split_and!; [lia|vm_compute; reflexivity|]. intros (k & H & _). lia. Qed.
Print Assumptions C36_empty_region_at_origin_refuted.

(** * C37 *)
(** Along every axis: the padding fits into the calculated domain, never exceeds the request, equals the
    request if there is room for it, and the downsampled padded domain is larger than the downsampled domain
    by exactly the padding. *)
Theorem C37_padding_survives_downsampling (calc start shape ds req : N) :
  (0 < ds)%N -> (0 < shape)%N -> (start + shape <= calc)%N -> (calc + ds < W)%N ->
  let pre := padding_pre start ds req in
  let post := padding_post calc (start + shape) ds req in
  let pstart := padded_start start pre ds in
  let pshape := padded_shape shape pre post ds in
  (* inside the calculated domain; the original domain starts at padded element pre*ds *)
  (pstart + pre * ds = start)%N /\ (pshape = pre * ds + shape + post * ds)%N /\ (pstart + pshape <= calc)%N /\
  (* as much as requested, or as much as fits *)
  (pre <= req)%N /\ ((req * ds <= start)%N -> pre = req) /\
  (post <= req)%N /\ ((start + shape + req * ds <= calc)%N -> post = req) /\
  (* the effect on the downsampled shape *)
  (exists n, get_downsampled_shape [0%N] [shape] [ds] = [n] /\
     get_downsampled_shape [0%N] [pshape] [ds] = [(n + pre + post)%N]).
Proof.
  intros Hd Hs Hfit HW. cbv zeta. unfold padding_pre, padding_post.
  rewrite (wsub_le calc) by lia. set (room := (calc - (start + shape))%N).
  pose proof (N.mul_div_le start ds ltac:(lia)) as D1. pose proof (N.mul_div_le room ds ltac:(lia)) as D2.
  set (pre := N.min (start / ds) req). set (post := N.min (room / ds) req).
  assert (pre * ds <= start)%N as P1 by (unfold pre; nia). assert (post * ds <= room)%N as P2 by (unfold post; nia).
  assert (pre <= start)%N as P1' by nia. assert (post <= room)%N as P2' by nia.
  assert (padded_start start pre ds = start - pre * ds)%N as E1.
  { unfold padded_start, wmul. rewrite N.mod_small by lia. apply wsub_le. lia. }
  assert (padded_shape shape pre post ds = pre * ds + shape + post * ds)%N as E2.
  { unfold padded_shape, wadd, wmul. rewrite (N.mod_small (pre + post)) by lia.
    rewrite (N.mod_small ((pre + post) * ds)) by lia. rewrite N.mod_small by lia. lia. }
  rewrite E1, E2. split_and!; try lia; try (unfold room in *; lia).
  - intros Hr. unfold pre. apply N.min_r. apply N.div_le_lower_bound; lia.
  - intros Hr. unfold post. apply N.min_r. apply N.div_le_lower_bound; unfold room; lia.
  - assert (forall m, 0 < m < W -> get_downsampled_shape [0%N] [m] [ds] = [((m - 1) / ds + 1)%N])%N as Hg.
    { intros m Hm. unfold get_downsampled_shape, ds_shape, ds_first, ds_last, vwadd, vwsub, vwdiv. simpl.
      assert (forall y, y < W -> wadd 0 y = y)%N as Hz by (intros y Hy; unfold wadd; rewrite N.mod_small; lia).
      rewrite !Hz by lia. rewrite !(wsub_le ds), !(wsub_le m) by lia.
      replace ((ds - 1) / ds)%N with 0%N by (symmetry; apply N.div_small; lia).
      assert ((m - 1) / ds < m)%N by (apply N.div_lt_upper_bound; nia). unfold wadd. rewrite N.mod_small by lia.
      rewrite N.max_0_r. f_equal. rewrite wsub_le; [apply N.sub_0_r|]. split; [apply N.le_0_l|lia]. }
    exists ((shape - 1) / ds + 1)%N. rewrite !Hg by (unfold room in *; lia). split; [done|]. f_equal.
    replace (pre * ds + shape + post * ds - 1)%N with (shape - 1 + (pre + post) * ds)%N by lia.
    rewrite N.div_add by lia. lia.
Qed.
Print Assumptions C37_padding_survives_downsampling.

Example C37_nonvacuous :
  padding_pre 5 2 3 = 2%N /\ padding_post 20 15 2 3 = 2%N /\
  get_downsampled_shape [0%N] [10%N] [2%N] = [5%N] /\
  get_downsampled_shape [0%N] [padded_shape 10 2 2 2] [2%N] = [9%N].
Proof. vm_compute. done. Qed.
