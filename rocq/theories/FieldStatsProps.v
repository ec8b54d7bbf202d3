(** C38: dynamic-range truncation of the stored field. *)
From stdpp Require Import base list list_numbers numbers option gmap.
From Coq Require Import NArith Reals Lra Lia.
From Verif Require Import IndexSpec LoopsModel LoopsProofs NDArrayModel NDArrayProofs NDArrayOps NDArrayOps2 NDArrayOps3 NDArrayProps
  BBoxModel BBoxProps DownsampleModel DownsampleProps FieldStatsModel.
Local Open Scope R_scope.

(** * Specification *)
(** The saved portion of a simulation chunk starts at [start] and has extent [shape]: position [x] in it is grid index
    [place start x]. *)
Definition place (start : list N) (x : list nat) : list N := zip_with N.add start (vof_nat x).
Definition portion_ok (start : list N) (shape : list nat) : Prop :=
  shape <> [] /\ Forall2 (fun s n => (1 <= n)%nat /\ (s + N.of_nat n < 2 ^ 64)%N) start shape.
(** One time step visits every point of the portion, and no grid point twice. *)
Definition visits (start : list N) (shape : list nat) (pts : list (list N * (R * R))) : Prop :=
  NoDup pts.*1 /\ (forall p, p ∈ pts -> length p.1 = length start /\ coords p.1) /\
  (forall x, in_shape shape x -> exists e, (place start x, e) ∈ pts).
(** Positions [x] and [y] lie in the same cell of linear size [ds]. *)
Definition same_cell (ds : nat) (x y : list nat) : Prop := Forall2 (fun i j => i / ds = j / ds)%nat x y.
(** |E| *)
Definition norm2 (e : R * R) : R := sqrt (e.1 * e.1 + e.2 * e.2).
(** [v] is a field magnitude seen in the cell of [x] of chunk [key] during the steps [hist]. *)
Definition seen (ds : nat) (start : list N) (shape : list nat) (key : Z)
    (hist : list (Z * list (list N * (R * R)))) (x : list nat) (v : R) : Prop :=
  exists pts y e, (key, pts) ∈ hist /\ in_shape shape y /\ same_cell ds x y /\ (place start y, e) ∈ pts /\ v = norm2 e.
(** [M] is the largest of 0 and the magnitudes seen. *)
Definition running_max ds start shape key hist x (M : R) : Prop :=
  0 <= M /\ (forall v, seen ds start shape key hist x v -> v <= M) /\ (M = 0 \/ seen ds start shape key hist x M).

(** * Indices *)
Lemma cell_bound ds sh x : (0 < ds)%nat -> in_shape sh x -> in_shape (cell_shape ds sh) (cell_ind ds x).
Proof.
  intros Hds. rewrite !in_shape_forall2. unfold cell_shape, cell_ind. induction 1 as [|i s x sh H Hs IH]; [constructor|].
  constructor; [|done]. apply Nat.lt_le_trans with (i / ds + 1)%nat; [lia|].
  replace (i / ds + 1)%nat with ((i + 1 * ds) / ds)%nat by (rewrite Nat.div_add; lia).
  apply Nat.div_le_mono; lia.
Qed.
Lemma cell_shape_pos ds sh : (0 < ds)%nat -> Forall (fun n => 1 <= n)%nat sh -> Forall (fun n => 1 <= n)%nat (cell_shape ds sh).
Proof.
  intros Hds H. unfold cell_shape. induction H as [|s sh H Hs IH]; [constructor|]. constructor; [|done].
  apply Nat.div_le_lower_bound; lia.
Qed.
Lemma same_cell_eq ds x y : same_cell ds x y <-> cell_ind ds x = cell_ind ds y.
Proof.
  unfold same_cell, cell_ind. split.
  - induction 1 as [|i j x y H Hs IH]; [done|]. rewrite !fmap_cons. by rewrite H, IH.
  - revert y; induction x as [|i x IH]; intros [|j y]; rewrite ?fmap_nil, ?fmap_cons; intros E; simplify_eq; constructor; auto.
Qed.

Lemma portion_axes start shape : portion_ok start shape -> Forall (fun n => 1 <= n)%nat shape.
Proof. intros [_ H]. induction H as [|s n start shape [? ?] H IH]; constructor; auto. Qed.

Lemma contains_iff start shape p : portion_ok start shape -> length p = length start -> coords p ->
  contains_loop start (vof_nat shape) p = true <-> exists x, in_shape shape x /\ p = place start x.
Proof.
  intros [_ Hok] Hl Hc. 
  assert (vof_nat shape = zip_with wsub (zip_with N.add start (vof_nat shape)) start) as E.
  { clear -Hok. unfold vof_nat. induction Hok as [|s n start shape [H1 H2] Hok IH]; [done|]. rewrite fmap_cons. cbn [zip_with].
    f_equal; [|done]. rewrite wsub_le by (unfold W; lia). lia. }
  rewrite E, contains_loop_spec; try done.
  2: { split.
       - rewrite zip_with_length_l_eq; [done|]. unfold vof_nat. rewrite fmap_length. by apply Forall2_length in Hok.
       - intros i a b Ha Hb. rewrite lookup_zip_with, Ha in Hb. simpl in Hb. unfold vof_nat in Hb. rewrite list_lookup_fmap in Hb.
         destruct (shape !! i) as [n|] eqn:En; simplify_eq/=. pose proof (Forall2_lookup_lr _ _ _ _ _ _ Hok Ha En) as [? ?]. lia. }
  clear E Hc. revert p Hl. induction Hok as [|s n start shape [H1 H2] Hok IH]; intros p Hl.
  - destruct p; [|done]. simpl. rewrite inbox_nil. split; [|done]. intros _. exists []. done.
  - destruct p as [|p0 p]; [done|]. unfold vof_nat. rewrite fmap_cons. cbn [zip_with]. rewrite inbox_cons.
    fold (vof_nat shape). rewrite IH by (simpl in Hl; lia). split.
    + intros (? & x & Hx & ->). exists (N.to_nat (p0 - s) :: x). split.
      * apply in_shape_cons. eexists _, _. split; [done|]. split; [lia|done].
      * unfold place, vof_nat. rewrite fmap_cons. cbn [zip_with]. f_equal. lia.
    + intros (x & Hx & E). apply in_shape_cons in Hx as (x0 & x' & -> & Hx0 & Hx). 
      unfold place, vof_nat in E. rewrite fmap_cons in E. cbn [zip_with] in E. injection E as -> ->.
      split; [lia|]. exists x'. done.
Qed.
Lemma rel_place start shape x : portion_ok start shape -> in_shape shape x -> vto_nat (vwsub (place start x) start) = x.
Proof.
  intros [_ Hok] Hx. revert x Hx. induction Hok as [|s n start shape [H1 H2] Hok IH]; intros x Hx.
  - apply in_shape_nil in Hx as ->. done.
  - apply in_shape_cons in Hx as (x0 & x' & -> & Hx0 & Hx). unfold place, vof_nat, vwsub, vto_nat. rewrite fmap_cons. cbn [zip_with].
    rewrite fmap_cons. f_equal; [|by apply IH]. rewrite wsub_le by (unfold W; lia). lia.
Qed.
Lemma place_inj start shape x y : portion_ok start shape -> in_shape shape x -> in_shape shape y -> place start x = place start y -> x = y.
Proof. intros Hok Hx Hy E. rewrite <- (rel_place _ _ _ Hok Hx), <- (rel_place _ _ _ Hok Hy). by rewrite E. Qed.

Lemma in_slice sh x : in_shape sh x -> in_shape (1%nat :: sh) (0%nat :: x).
Proof. intros. apply in_shape_cons. eexists _, _. split; [done|]. split; [lia|done]. Qed.

(** * Filling the buffers *)
Lemma store_points start shape pts f a :
  portion_ok start shape -> NoDup pts.*1 -> (forall p, p ∈ pts -> length p.1 = length start /\ coords p.1) ->
  wf_owned 2 f -> wf_owned 1 a -> a_shape f = 1%nat :: shape -> a_shape a = shape ->
  exists f' a', foldM (store_point start shape) (f, a) pts = Some (f', a') /\
    wf_owned 2 f' /\ wf_owned 1 a' /\ a_shape f' = 1%nat :: shape /\ a_shape a' = shape /\
    (forall x e, in_shape shape x -> (place start x, e) ∈ pts ->
       aread 2 f' (0%nat :: x) = Some [e.2; e.1] /\ aread 1 a' x = Some [norm2 e]) /\
    (forall x, in_shape shape x -> place start x ∉ pts.*1 ->
       aread 2 f' (0%nat :: x) = aread 2 f (0%nat :: x) /\ aread 1 a' x = aread 1 a x).
Proof.
  intros Hok. revert f a. induction pts as [|[p e] pts IH]; intros f a Hnd Hpts Hf Ha Hsf Hsa.
  - exists f, a. refine (conj _ (conj _ (conj _ (conj _ (conj _ (conj _ _)))))); try done.
    intros x e _ Hin. by apply elem_of_nil in Hin.
  - rewrite fmap_cons in Hnd. apply list.NoDup_cons in Hnd as [Hnp Hnd]. simpl in Hnp.
    destruct (Hpts (p, e)) as [Hl Hc]; [left|]. simpl in Hl, Hc.
    assert (forall p, p ∈ pts -> length p.1 = length start /\ coords p.1) as Hpts' by (intros q Hq; apply Hpts; by right).
    cbn [foldM]. assert (store_point start shape (f, a) (p, e) = if contains_loop start (vof_nat shape) p then
      f ← awrite 2 f (0%nat :: vto_nat (vwsub p start)) [e.2; e.1];
      a ← awrite 1 a (vto_nat (vwsub p start)) [magnitude e.1 e.2]; Some (f, a) else Some (f, a)) as -> by done.
    destruct (contains_loop start (vof_nat shape) p) eqn:Ec.
    + apply contains_iff in Ec as (x & Hx & ->); [|done..]. rewrite (rel_place _ _ _ Hok Hx).
      destruct (awrite_spec 2 f (0%nat :: x) [e.2; e.1]) as (f1 & -> & Hf1 & Hsf1 & Hrf & Hof); [done|rewrite Hsf; by apply in_slice|done|].
      cbn [mbind option_bind].
      destruct (awrite_spec 1 a x [magnitude e.1 e.2]) as (a1 & -> & Ha1 & Hsa1 & Hra & Hoa); [done|by rewrite Hsa|done|].
      cbn [mbind option_bind].
      destruct (IH f1 a1) as (f' & a' & -> & Hf' & Ha' & Hsf' & Hsa' & Hin & Hout); try done; try congruence.
      exists f', a'. refine (conj _ (conj _ (conj _ (conj _ (conj _ (conj _ _)))))); try done.
      * intros y e' Hy Hye. apply elem_of_cons in Hye as [Hye|Hye].
        -- injection Hye as Hye ->. assert (y = x) as -> by (by eapply place_inj). destruct (Hout x Hx Hnp) as [-> ->]. split; [done|]. by rewrite Hra.
        -- by apply Hin.
      * intros y Hy Hny. rewrite fmap_cons in Hny. apply not_elem_of_cons in Hny as [Hne Hny]. simpl in Hne.
        destruct (Hout y Hy Hny) as [-> ->]. assert (y <> x) by (intros ->; done). split.
        -- apply Hof; [rewrite Hsf; by apply in_slice|congruence].
        -- apply Hoa; [by rewrite Hsa|done].
    + cbn [mbind option_bind].
      destruct (IH f a) as (f' & a' & -> & Hf' & Ha' & Hsf' & Hsa' & Hin & Hout); try done.
      exists f', a'. refine (conj _ (conj _ (conj _ (conj _ (conj _ (conj _ _)))))); try done.
      * intros y e' Hy Hye. apply elem_of_cons in Hye as [Hye|Hye]; [|by apply Hin].
        injection Hye as <- <-. assert (contains_loop start (vof_nat shape) (place start y) = true); [|congruence].
        apply contains_iff; [done..|]. by exists y.
      * intros y Hy Hny. rewrite fmap_cons in Hny. apply not_elem_of_cons in Hny as [_ Hny]. by apply Hout.
Qed.

(** * Updating the maxima *)
Lemma max_fold ds data mx shape inds (g : list nat -> R) : (0 < ds)%nat ->
  wf_owned 1 mx -> a_shape mx = cell_shape ds shape ->
  (forall x, x ∈ inds -> in_shape shape x /\ aread 1 data x = Some [g x]) ->
  exists mx', foldM (max_updater ds data) mx inds = Some mx' /\ wf_owned 1 mx' /\ a_shape mx' = cell_shape ds shape /\
    forall c o, in_shape (cell_shape ds shape) c -> aread 1 mx c = Some [o] ->
      exists m, aread 1 mx' c = Some [m] /\ o <= m /\ (forall x, x ∈ inds -> cell_ind ds x = c -> g x <= m) /\
        (m = o \/ exists x, x ∈ inds /\ cell_ind ds x = c /\ m = g x).
Proof.
  intros Hds. revert mx. induction inds as [|x inds IH]; intros mx Hmx Hsh Hin.
  - exists mx. refine (conj _ (conj _ (conj _ _))); try done. intros c o Hc Ho. exists o. split; [done|]. split; [lra|]. split; [|by left].
    intros x Hx. by apply elem_of_nil in Hx.
  - destruct (Hin x) as [Hx Hg]; [left|]. pose proof (cell_bound _ _ _ Hds Hx) as Hcx.
    destruct (aread_Some 1 mx (cell_ind ds x)) as (v & Hv & Hlv); [by apply wf_owned_wf|by rewrite Hsh|].
    destruct v as [|o0 [|? ?]]; try done.
    cbn [foldM]. assert (max_updater ds data mx x = if Rlt_dec o0 (g x) then awrite 1 mx (cell_ind ds x) [g x] else Some mx) as ->
      by (unfold max_updater; rewrite Hg; cbn [mbind option_bind]; by rewrite Hv).
    assert (forall y, y ∈ inds -> in_shape shape y /\ aread 1 data y = Some [g y]) as Hin' by (intros; apply Hin; by right).
    destruct (Rlt_dec o0 (g x)) as [Hlt|Hge].
    + destruct (awrite_spec 1 mx (cell_ind ds x) [g x]) as (mx1 & -> & Hmx1 & Hsh1 & Hr1 & Ho1); [done|by rewrite Hsh|done|].
      cbn [mbind option_bind]. destruct (IH mx1) as (mx' & -> & Hw' & Hs' & Hr'); [done|congruence|done|].
      exists mx'. refine (conj _ (conj _ (conj _ _))); try done. intros c o Hc Hco.
      destruct (decide (c = cell_ind ds x)) as [->|Hne].
      * rewrite Hv in Hco. injection Hco as <-. destruct (Hr' _ _ Hc Hr1) as (m & Hm & H1 & H2 & H3).
        exists m. split; [done|]. split; [lra|]. split.
        -- intros y [->|Hy]%elem_of_cons E; [done|by apply H2].
        -- right. destruct H3 as [->|(y & Hy & Ey & ->)]; [exists x|exists y]; (split; [|done]); [left|by right].
      * assert (aread 1 mx1 c = Some [o]) as Hco1 by (rewrite Ho1; [done|by rewrite Hsh|done]).
        destruct (Hr' _ _ Hc Hco1) as (m & Hm & H1 & H2 & H3). exists m. split; [done|]. split; [done|]. split.
        -- intros y [->|Hy]%elem_of_cons E; [by subst c|by apply H2].
        -- destruct H3 as [->|(y & Hy & Ey & ->)]; [by left|right; exists y; split; [by right|done]].
    + cbn [mbind option_bind]. destruct (IH mx) as (mx' & -> & Hw' & Hs' & Hr'); [done..|].
      exists mx'. refine (conj _ (conj _ (conj _ _))); try done. intros c o Hc Hco.
      destruct (Hr' _ _ Hc Hco) as (m & Hm & H1 & H2 & H3). exists m. split; [done|]. split; [done|]. split.
      * intros y [->|Hy]%elem_of_cons E; [|by apply H2]. subst c. rewrite Hv in Hco. injection Hco as <-. lra.
      * destruct H3 as [->|(y & Hy & Ey & ->)]; [by left|right; exists y; split; [by right|done]].
Qed.

(** * Truncating *)
Lemma truncate_fold ds m key absval abs_min dyn shape field inds (mx cur : list nat -> R) :
  wf_owned 2 field -> a_shape field = 1%nat :: shape -> NoDup inds ->
  (forall y, y ∈ inds -> in_shape (a_shape field) y) ->
  (forall x, in_shape shape x -> get_max_local ds m key x = Some (mx x) /\ aread 1 absval x = Some [cur x]) ->
  exists field', foldM (truncator ds m key absval abs_min dyn) field inds = Some field' /\ wf_owned 2 field' /\
    a_shape field' = a_shape field /\
    (forall x, in_shape shape x -> (0%nat :: x) ∈ inds ->
      aread 2 field' (0%nat :: x) =
        if Rlt_dec abs_min (mx x) then if Rlt_dec (cur x) (mx x / dyn) then Some [0; 0] else aread 2 field (0%nat :: x)
        else Some [0; 0]) /\
    (forall y, in_shape (a_shape field) y -> y ∉ inds -> aread 2 field' y = aread 2 field y).
Proof.
  intros Hwf Hsh Hnd Hin Hg. revert field Hwf Hsh Hin. induction inds as [|y inds IH]; intros field Hwf Hsh Hin.
  - exists field. refine (conj _ (conj _ (conj _ (conj _ _)))); try done. intros x _ Hx. by apply elem_of_nil in Hx.
  - apply list.NoDup_cons in Hnd as [Hny Hnd]. specialize (IH Hnd).
    assert (in_shape (a_shape field) y) as Hy by (apply Hin; left).
    pose proof Hy as Hy'. rewrite Hsh in Hy'. apply in_shape_cons in Hy' as (y0 & x & -> & Hy0 & Hx). assert (y0 = 0%nat) as -> by lia.
    destruct (Hg x Hx) as [Hmx Hcur]. destruct (awrite_spec 2 field (0%nat :: x) [0; 0]) as (f1 & Hf1 & Hw1 & Hs1 & Hr1 & Ho1); [done..|].
    assert (exists f2, truncator ds m key absval abs_min dyn field (0%nat :: x) = Some f2 /\ wf_owned 2 f2 /\ a_shape f2 = a_shape field /\
      aread 2 f2 (0%nat :: x) = (if Rlt_dec abs_min (mx x) then if Rlt_dec (cur x) (mx x / dyn) then Some [0; 0] else aread 2 field (0%nat :: x)
        else Some [0; 0]) /\
      forall y, in_shape (a_shape field) y -> y <> 0%nat :: x -> aread 2 f2 y = aread 2 field y) as (f2 & Hf2 & Hw2 & Hs2 & Hr2 & Ho2).
    { unfold truncator. cbn [tail]. rewrite Hmx. cbn [mbind option_bind]. destruct (Rlt_dec abs_min (mx x)).
      - rewrite Hcur. cbn [mbind option_bind]. destruct (Rlt_dec (cur x) (mx x / dyn)).
        + exists f1. refine (conj _ (conj _ (conj _ (conj _ _)))); try done.
        + exists field. done.
      - exists f1. done. }
    cbn [foldM]. rewrite Hf2. cbn [mbind option_bind].
    destruct (IH f2) as (f' & -> & Hw' & Hs' & Hr' & Ho'); [done|congruence| |].
    { intros z Hz. rewrite Hs2. apply Hin. by right. }
    exists f'. refine (conj _ (conj _ (conj _ (conj _ _)))); try done; [congruence| |].
    + intros z Hz [E|Hzin]%elem_of_cons.
      * injection E as ->. rewrite Ho'; [done|by rewrite Hs2|done].
      * rewrite Hr' by done. assert (0%nat :: z <> 0%nat :: x) by (intros E; by rewrite E in Hzin).
        rewrite Ho2; [done|rewrite Hsh; by apply in_slice|done].
    + intros z Hz [Hne Hzn]%not_elem_of_cons. rewrite Ho'; [|by rewrite Hs2|done]. by apply Ho2.
Qed.

(** * The invariant of the whole run *)
Definition tracks (ds : nat) (hist : list (Z * list (list N * (R * R)))) (s : sstate) : Prop :=
  a_owns (st_field s) = true /\ a_owns (st_absval s) = true /\
  (forall key, st_metas s !! key = None -> st_stats s !! key = None) /\
  forall key start shape, st_metas s !! key = Some (start, shape) ->
    portion_ok start shape /\ exists mx, st_stats s !! key = Some mx /\ wf_owned 1 mx /\ a_shape mx = cell_shape ds shape /\
      forall x, in_shape shape x -> exists M, aread 1 mx (cell_ind ds x) = Some [M] /\ running_max ds start shape key hist x M.

Lemma add_region_spec junk ds m key sh : (0 < ds)%nat -> sh <> [] -> Forall (fun n => 1 <= n)%nat sh ->
  exists r, add_region junk ds m key sh 0 = Some (match m !! key with Some _ => m | None => <[key := r]> m end) /\
    wf_owned 1 r /\ a_shape r = cell_shape ds sh /\ forall c, in_shape (cell_shape ds sh) c -> aread 1 r c = Some [0].
Proof.
  intros Hds Hne Hpos. unfold add_region, aassign_val. pose proof (cell_shape_pos _ _ Hds Hpos) as Hcp.
  destruct (afill_spec 1 (anew 1 junk (cell_shape ds sh)) (replicate (length (cell_shape ds sh)) 0%nat) (cell_shape ds sh) 0)
    as (r & Hr & Hwr & Hsr & Hrr).
  - apply anew_wf. unfold cell_shape. by destruct sh.
  - clear -Hcp. induction Hcp; [constructor|]. cbn [length replicate]. constructor; [lia|done].
  - simpl. clear. induction (cell_shape ds sh); constructor; auto.
  - cbn [a_shape anew] in *. rewrite Hr. cbn [mbind option_bind]. exists r. split; [done|]. split; [done|]. split; [done|].
    intros c Hc. rewrite Hrr by done. destruct (decide _) as [_|Hn]; [done|]. exfalso. apply Hn. done.
Qed.

Lemma setup_tracks junk ds s c : (0 < ds)%nat -> tracks ds [] s -> portion_ok c.2.1 c.2.2 ->
  exists s', setup_chunk junk ds s c = Some s' /\ tracks ds [] s' /\
    (forall k, k <> c.1 -> st_metas s' !! k = st_metas s !! k) /\ (st_metas s !! c.1 = None -> st_metas s' !! c.1 = Some c.2).
Proof.
  intros Hds (Hof & Hoa & Hnone & Htr) Hok. unfold setup_chunk.
  destruct (add_region_spec junk ds (st_stats s) c.1 c.2.2 Hds) as (r & Hr & Hwr & Hsr & Hrr); [by destruct Hok|by eapply portion_axes|].
  rewrite Hr. cbn [mbind option_bind]. eexists. split; [done|]. destruct (st_metas s !! c.1) as [[start shape]|] eqn:Em.
  - destruct (Htr _ _ _ Em) as (_ & mx & -> & _). split; [|done]. split_and!; done.
  - rewrite (Hnone _ Em). split; [|split].
    + refine (conj _ (conj _ (conj _ _))); try done; cbn [st_metas st_stats].
      * intros k. destruct (decide (k = c.1)) as [->|]; [by rewrite lookup_insert|]. rewrite !lookup_insert_ne by done. apply Hnone.
      * intros k start shape. destruct (decide (k = c.1)) as [->|].
        -- rewrite !lookup_insert. intros [= E]. rewrite E in *. cbn [fst snd] in *. split; [done|]. exists r. split_and!; try done.
           intros x Hx. exists 0. split; [apply Hrr; by apply cell_bound|]. split; [lra|]. split; [|by left].
           intros v (pts & y & e & Hin & _). by apply elem_of_nil in Hin.
        -- rewrite !lookup_insert_ne by done. apply Htr.
    + intros k Hk. cbn [st_metas]. by rewrite lookup_insert_ne.
    + intros _. cbn [st_metas]. by rewrite lookup_insert.
Qed.

Lemma seen_app ds start shape key hist e x v :
  seen ds start shape key (hist ++ [e]) x v <-> seen ds start shape key hist x v \/ (e.1 = key /\ seen ds start shape key [e] x v).
Proof.
  unfold seen. split.
  - intros (pts & y & w & Hin & H). apply elem_of_app in Hin as [Hin|Hin].
    + left. by exists pts, y, w.
    + right. pose proof Hin as Hin'. apply elem_of_list_singleton in Hin as <-. split; [done|]. by exists pts, y, w.
  - intros [(pts & y & w & Hin & H)|[_ (pts & y & w & Hin & H)]]; exists pts, y, w; (split; [|done]); apply elem_of_app; auto.
Qed.

Lemma save_tracks junk ds abs_min dyn hist s e : (0 < ds)%nat -> tracks ds hist s ->
  (forall start shape, st_metas s !! e.1 = Some (start, shape) -> visits start shape e.2) ->
  exists s', save_slice junk ds abs_min dyn s e = Some s' /\ tracks ds (hist ++ [e]) s' /\ st_metas s' = st_metas s /\
    forall start shape, st_metas s !! e.1 = Some (start, shape) -> a_shape (st_field s') = 1%nat :: shape /\
      forall x w, in_shape shape x -> (place start x, w) ∈ e.2 ->
        exists M, running_max ds start shape e.1 (hist ++ [e]) x M /\
          aread 2 (st_field s') (0%nat :: x) =
            if Rlt_dec abs_min M then if Rlt_dec (norm2 w) (M / dyn) then Some [0; 0] else Some [w.2; w.1] else Some [0; 0].
Proof.
  intros Hds Htr Hv. pose proof Htr as (Hof & Hoa & Hnone & Hmet). unfold save_slice.
  destruct (st_metas s !! e.1) as [[start shape]|] eqn:Em.
  2: { exists s. refine (conj eq_refl (conj _ (conj eq_refl _))); [|done].
       refine (conj Hof (conj Hoa (conj Hnone _))). intros key start shape Hk. destruct (Hmet _ _ _ Hk) as (Hok & mx & H1 & H2 & H3 & H4).
       split; [done|]. exists mx. refine (conj H1 (conj H2 (conj H3 _))). intros x Hx. destruct (H4 x Hx) as (M & HM & R1 & R2 & R3).
       exists M. split; [done|]. split; [done|]. split.
       - intros v [Hs|[E _]]%seen_app; [by apply R2|]. rewrite E in Em. congruence.
       - destruct R3 as [R3|R3]; [by left|right]. apply seen_app. by left. }
  specialize (Hv _ _ eq_refl) as (Hnd & Hpts & Hall). destruct (Hmet _ _ _ Em) as (Hok & mx & Hmx & Hwm & Hsm & Hrm).
  assert (shape <> []) as Hne by apply Hok.
  destruct (aresize 1 junk shape (st_absval s)) as [a|] eqn:Ea; [|unfold aresize in Ea; by rewrite Hoa in Ea].
  destruct (aresize 2 junk (1%nat :: shape) (st_field s)) as [f|] eqn:Ef; [|unfold aresize in Ef; by rewrite Hof in Ef].
  apply aresize_wf in Ea as [Hwa Hsa]; [|done]. apply aresize_wf in Ef as [Hwf Hsf]; [|done].
  cbn [mbind option_bind].
  destruct (store_points start shape e.2 f a) as (f1 & a1 & -> & Hwf1 & Hwa1 & Hsf1 & Hsa1 & Hst & _); [done..|].
  cbn [mbind option_bind].
  assert (exists g : list nat -> R * R, forall x, in_shape shape x -> (place start x, g x) ∈ e.2) as [g Hg].
  { exists (fun x => default (0, 0) (snd <$> list_find (fun p : list N * (R * R) => p.1 = place start x) e.2 ≫= fun q => Some q.2)).
    intros x Hx. destruct (Hall x Hx) as [w Hw]. destruct (list_find (fun p : list N * (R * R) => p.1 = place start x) e.2) as [[i q]|] eqn:Eq.
    - apply list_find_Some in Eq as (Hi & Hq & _). cbn. rewrite <- Hq. destruct q as [q1 q2]. by eapply elem_of_list_lookup_2.
    - exfalso. apply list_find_None in Eq. rewrite list.Forall_forall in Eq. by apply (Eq _ Hw). }
  assert (forall x w, in_shape shape x -> (place start x, w) ∈ e.2 -> w = g x) as Hgu.
  { intros x w Hx Hw. specialize (Hg x Hx). apply elem_of_list_lookup in Hw as [i Hi], Hg as [j Hj].
    assert (i = j) as ->; [|congruence]. eapply (NoDup_lookup e.2.*1 i j (place start x)); [done|by rewrite list_lookup_fmap, Hi|by rewrite list_lookup_fmap, Hj]. }
  unfold update_stats. rewrite Hmx. cbn [mbind option_bind]. rewrite Hsa1.
  rewrite elem_loop_spec by (by rewrite ?replicate_length). cbn [mbind option_bind].
  destruct (max_fold ds a1 mx shape (box_elems (replicate (length shape) 0%nat) shape) (fun x => norm2 (g x)))
    as (mx' & Hmx' & Hwm' & Hsm' & Hrm'); [done..| |].
  { intros x Hx. apply elem_of_box_elems_shape in Hx. split; [done|]. apply (Hst x (g x)); auto. }
  rewrite Hmx'. cbn [mbind option_bind].
  assert (forall x, in_shape shape x -> exists M, aread 1 mx' (cell_ind ds x) = Some [M] /\ running_max ds start shape e.1 (hist ++ [e]) x M) as HM.
  { intros x Hx. destruct (Hrm x Hx) as (o & Ho & R1 & R2 & R3).
    destruct (Hrm' _ _ (cell_bound _ _ _ Hds Hx) Ho) as (M & HM & H1 & H2 & H3). exists M. split; [done|]. split; [lra|]. split.
    - intros v [Hs|[_ Hs]]%seen_app; [specialize (R2 v Hs); lra|]. destruct Hs as (pts & y & w & Hin & Hy & Hc & Hw & ->).
      apply elem_of_list_singleton in Hin. rewrite <- Hin in *. cbn [fst snd] in *. rewrite (Hgu _ _ Hy Hw). apply H2; [by apply elem_of_box_elems_shape|].
      symmetry. by apply same_cell_eq.
    - destruct H3 as [->|(y & Hy & Hc & ->)].
      + destruct R3 as [R3|R3]; [by left|right]. apply seen_app. by left.
      + right. apply elem_of_box_elems_shape in Hy. apply seen_app. right. split; [done|]. exists e.2, y, (g y).
        split; [apply elem_of_list_singleton; by destruct e|]. split; [done|]. split; [by apply same_cell_eq|]. auto. }
  set (m' := <[e.1 := mx']> (st_stats s)).
  assert (exists Mx : list nat -> R, forall x, in_shape shape x -> get_max_local ds m' e.1 x = Some (Mx x) /\ running_max ds start shape e.1 (hist ++ [e]) x (Mx x)) as [Mx HMx].
  { exists (fun x => default 0 (get_max_local ds m' e.1 x)). intros x Hx. destruct (HM x Hx) as (M & H1 & H2).
    unfold get_max_local, m'. rewrite lookup_insert. cbn [mbind option_bind]. rewrite H1. done. }
  unfold limit_dynamic_range. rewrite Hsf1. rewrite elem_loop_spec by (by rewrite ?replicate_length). cbn [mbind option_bind].
  destruct (truncate_fold ds m' e.1 a1 abs_min dyn shape f1 (box_elems (replicate (length (1%nat :: shape)) 0%nat) (1%nat :: shape)) Mx (fun x => norm2 (g x)))
    as (f2 & Hf2 & Hwf2 & Hsf2 & Hrf2 & _); [done|done|apply box_elems_NoDup| | |].
  { intros y Hy. apply elem_of_box_elems_shape in Hy. by rewrite Hsf1. }
  { intros x Hx. split; [by apply HMx|]. apply (Hst x (g x)); auto. }
  rewrite Hf2. cbn [mbind option_bind]. eexists. split; [done|]. cbn [st_metas st_field st_absval st_stats].
  refine (conj _ (conj eq_refl _)).
  - refine (conj _ (conj _ (conj _ _))); cbn [st_metas st_field st_absval st_stats].
    + apply Hwf2.
    + apply Hwa1.
    + intros k Hk. unfold m'. rewrite lookup_insert_ne; [by apply Hnone|congruence].
    + intros k st sh Hk. destruct (decide (k = e.1)) as [->|Hne'].
      * rewrite Em in Hk. injection Hk as <- <-. split; [done|]. exists mx'. unfold m'. rewrite lookup_insert. split_and!; done.
      * unfold m'. rewrite lookup_insert_ne by done. destruct (Hmet _ _ _ Hk) as (Hok' & mk & H1 & H2 & H3 & H4). split; [done|].
        exists mk. refine (conj H1 (conj H2 (conj H3 _))). intros x Hx. destruct (H4 x Hx) as (M & HM' & R1 & R2 & R3).
        exists M. split; [done|]. split; [done|]. split.
        -- intros v [Hs|[E _]]%seen_app; [by apply R2|]. congruence.
        -- destruct R3 as [R3|R3]; [by left|right]. apply seen_app. by left.
  - intros ? ? [= <- <-]. split; [congruence|]. intros x w Hx Hw. exists (Mx x). split; [by apply HMx|].
    rewrite Hrf2; [|done|apply elem_of_box_elems_shape; by apply in_slice].
    rewrite (Hgu _ _ Hx Hw). destruct (Hst x (g x)) as [-> _]; auto.
Qed.

(** * C38 *)
(** After setting up any collection of simulation chunks and saving any history of slices (of these or other chunks),
    the slice just saved holds, at every position, the field computed there if the running maximum of the cell exceeds
    the threshold and the magnitude is not below that maximum over the dynamic range, and zero otherwise. *)
Theorem C38_truncation_keeps_significant_samples junk ds abs_min dyn chunks hist key pts start shape f0 a0 :
  (0 < ds)%nat -> 0 < dyn -> a_owns f0 = true -> a_owns a0 = true ->
  NoDup chunks.*1 -> (forall c, c ∈ chunks -> portion_ok c.2.1 c.2.2) ->
  (forall e c, e ∈ hist ++ [(key, pts)] -> c ∈ chunks -> c.1 = e.1 -> visits c.2.1 c.2.2 e.2) ->
  (key, (start, shape)) ∈ chunks ->
  exists s0 s, foldM (setup_chunk junk ds) (SState ∅ ∅ f0 a0) chunks = Some s0 /\
    foldM (save_slice junk ds abs_min dyn) s0 (hist ++ [(key, pts)]) = Some s /\
    a_shape (st_field s) = 1%nat :: shape /\
    forall x ez er, in_shape shape x -> (place start x, (ez, er)) ∈ pts ->
      exists M, running_max ds start shape key (hist ++ [(key, pts)]) x M /\
        ((M > abs_min /\ norm2 (ez, er) >= M / dyn /\ aread 2 (st_field s) (0%nat :: x) = Some [er; ez]) \/
         (~ (M > abs_min /\ norm2 (ez, er) >= M / dyn) /\ aread 2 (st_field s) (0%nat :: x) = Some [0; 0])).
Proof.
  intros Hds Hdyn Hf0 Ha0 Hnd Hok Hvis Hkey.
  assert (forall cs s, NoDup cs.*1 -> (forall c, c ∈ cs -> portion_ok c.2.1 c.2.2) -> tracks ds [] s ->
    (forall k, k ∈ cs.*1 -> st_metas s !! k = None) ->
    exists s', foldM (setup_chunk junk ds) s cs = Some s' /\ tracks ds [] s' /\
      (forall c, c ∈ cs -> st_metas s' !! c.1 = Some c.2) /\ (forall k, k ∉ cs.*1 -> st_metas s' !! k = st_metas s !! k)) as Hsetup.
  { clear -Hds. induction cs as [|c cs IH]; intros s Hnd Hok Hs Hk.
    - exists s. split_and!; try done. intros c Hc. by apply elem_of_nil in Hc.
    - rewrite fmap_cons in Hnd. apply list.NoDup_cons in Hnd as [Hnc Hnd].
      destruct (setup_tracks junk ds s c Hds Hs) as (s1 & H1 & T1 & M1 & M2); [apply Hok; left|].
      cbn [foldM]. rewrite H1. cbn [mbind option_bind].
      destruct (IH s1) as (s' & H' & T' & A' & B'); [done|intros; apply Hok; by right|done| |].
      { intros k Hkk. rewrite M1 by (intros ->; done). apply Hk. rewrite fmap_cons. by right. }
      exists s'. split; [done|]. split; [done|]. split.
      + intros c' [->|Hc']%elem_of_cons; [|by apply A']. rewrite B' by done. apply M2. apply Hk. rewrite fmap_cons. left.
      + intros k Hkn. rewrite fmap_cons in Hkn. apply not_elem_of_cons in Hkn as [Hk1 Hk2]. rewrite B' by done. by apply M1. }
  destruct (Hsetup chunks (SState ∅ ∅ f0 a0)) as (s0 & Hs0 & T0 & A0 & B0); [done|done| |by intros|].
  { refine (conj Hf0 (conj Ha0 (conj _ _))); cbn; intros; [by rewrite lookup_empty|]. match goal with H : ∅ !! _ = Some _ |- _ => by rewrite lookup_empty in H end. }
  assert (forall h s done, tracks ds done s -> st_metas s = st_metas s0 ->
    (forall e, e ∈ h -> forall st sh, st_metas s0 !! e.1 = Some (st, sh) -> visits st sh e.2) ->
    exists s', foldM (save_slice junk ds abs_min dyn) s h = Some s' /\ tracks ds (done ++ h) s' /\ st_metas s' = st_metas s0) as Hrun.
  { clear -Hds. induction h as [|e h IH]; intros s dn T Hm Hv.
    - exists s. rewrite app_nil_r. done.
    - destruct (save_tracks junk ds abs_min dyn dn s e Hds T) as (s1 & H1 & T1 & M1 & _).
      { intros st sh Hk. apply (Hv e); [left|]. by rewrite <- Hm. }
      cbn [foldM]. rewrite H1. cbn [mbind option_bind]. destruct (IH s1 (dn ++ [e])) as (s' & H' & T' & M'); [done|congruence| |].
      + intros e' He'. apply Hv. by right.
      + exists s'. split; [done|]. split; [|done]. by rewrite <- app_assoc in T'. }
  assert (forall e, e ∈ hist ++ [(key, pts)] -> forall st sh, st_metas s0 !! e.1 = Some (st, sh) -> visits st sh e.2) as Hv.
  { intros e He st sh Hk. destruct (decide (e.1 ∈ chunks.*1)) as [Hin|Hnin].
    - apply elem_of_list_fmap in Hin as (c & Hc1 & Hc). pose proof (A0 c Hc) as Hc2. rewrite <- Hc1, Hk in Hc2. injection Hc2 as E.
      pose proof (Hvis e c He Hc (eq_sym Hc1)) as H. by rewrite <- E in H.
    - rewrite B0 in Hk by done. cbn in Hk. by rewrite lookup_empty in Hk. }
  destruct (Hrun hist s0 []) as (s1 & H1 & T1 & M1); [done|done| |].
  { intros e He. apply Hv. apply elem_of_app. by left. }
  cbn [app] in T1. pose proof (A0 _ Hkey) as Hmk. cbn [fst snd] in Hmk.
  destruct (save_tracks junk ds abs_min dyn hist s1 (key, pts) Hds T1) as (s & Hs & T & M & Hres).
  { intros st sh Hk. rewrite M1 in Hk. apply (Hv (key, pts)); [|done]. apply elem_of_app. right. by apply elem_of_list_singleton. }
  exists s0, s. split; [done|]. split.
  { rewrite foldM_app, H1. cbn [mbind option_bind foldM]. by rewrite Hs. }
  destruct (Hres start shape) as [Hsh Hr]; [by rewrite M1|]. split; [done|].
  intros x ez er Hx Hin. destruct (Hr x (ez, er) Hx Hin) as (mm & Hmm & Hrd). exists mm. split; [done|]. rewrite Hrd.
  destruct (Rlt_dec abs_min mm), (Rlt_dec (norm2 (ez, er)) (mm / dyn)); [right; split; [intros [_ ?]; lra|done]|left; split; [lra|]; split; [lra|done]|
    right; split; [intros [? _]; lra|done]..].
Qed.
Print Assumptions C38_truncation_keeps_significant_samples.

(** The hypotheses can be met: a 1 x 2 portion starting at (3, 4), one cell, two time steps; a foreign point is visited, too.
    The second sample of the second step is below the dynamic range and dropped, the first is kept. *)
Example C38_nonvacuous :
  let chunks := [(7%Z, ([3%N; 4%N], [1%nat; 2%nat]))] in
  let step1 := (7%Z, [([3%N; 4%N], (4, 3)); ([3%N; 5%N], (1, 0)); ([9%N; 9%N], (100, 0))]) in
  let step2 := (7%Z, [([3%N; 5%N], (0, 0)); ([3%N; 4%N], (1, 0))]) in
  NoDup chunks.*1 /\ (forall c, c ∈ chunks -> portion_ok c.2.1 c.2.2) /\
  (forall e c, e ∈ [step1] ++ [step2] -> c ∈ chunks -> c.1 = e.1 -> visits c.2.1 c.2.2 e.2) /\
  (forall M, running_max 2 [3%N; 4%N] [1%nat; 2%nat] 7 [step1; step2] [0%nat; 1%nat] M -> M = 5).
Proof.
  cbv zeta. refine (conj _ (conj _ (conj _ _))).
  - apply NoDup_singleton.
  - intros c ->%elem_of_list_singleton. split; [done|]. repeat constructor; simpl; lia.
  - intros e c He ->%elem_of_list_singleton _.
    assert (forall x, in_shape [1%nat; 2%nat] x -> x = [0%nat; 0%nat] \/ x = [0%nat; 1%nat]) as Hx.
    { intros x Hx. destruct x as [|a [|b [|? ?]]]; cbn in Hx; try tauto. destruct Hx as [? [? _]].
      assert (a = 0%nat) as -> by lia. assert (b = 0%nat \/ b = 1%nat) as [->| ->] by lia; auto. }
    assert (forall p, p ∈ e.2 -> length p.1 = 2%nat /\ coords p.1) as Hp.
    { intros p Hp. assert (p.1 = [3%N; 4%N] \/ p.1 = [3%N; 5%N] \/ p.1 = [9%N; 9%N]) as [->|[->| ->]];
        [|split; [done|]; repeat constructor; lia..].
      apply elem_of_cons in He as [->|He%elem_of_list_singleton]; [|subst e]; cbn in Hp;
        repeat (apply elem_of_cons in Hp as [->|Hp]; [cbn; tauto|]); by apply elem_of_nil in Hp. }
    split; [|split; [done|]].
    + apply elem_of_cons in He as [->|He%elem_of_list_singleton]; [|subst e]; cbn; apply (bool_decide_unpack _); vm_compute; done.
    + intros x [->| ->]%Hx; (apply elem_of_cons in He as [->|He%elem_of_list_singleton]; [|subst e]); cbn; eexists;
        first [left; fail | apply elem_of_list_lookup; first [exists 0%nat; reflexivity | exists 1%nat; reflexivity]].
  - intros M (H0 & H1 & H2).
    assert (norm2 (4, 3) = 5) as E5. { unfold norm2; cbn. replace (4 * 4 + 3 * 3) with (5 * 5) by lra. apply sqrt_square; lra. }
    assert (norm2 (1, 0) = 1) as E1. { unfold norm2; cbn. replace (1 * 1 + 0 * 0) with (1 * 1) by lra. apply sqrt_square; lra. }
    assert (norm2 (0, 0) = 0) as E0. { unfold norm2; cbn. replace (0 * 0 + 0 * 0) with 0 by lra. apply sqrt_0. }
    assert (5 <= M) as Hge.
    { apply H1. eexists _, [0%nat; 0%nat], (4, 3). split; [left|]. split; [cbn; lia|]. split; [repeat constructor|]. split; [left|]. done. }
    destruct H2 as [->|H2]; [lra|]. destruct H2 as (pts & y & e & Hin & Hy & _ & He & ->).
    destruct y as [|a [|b [|? ?]]]; cbn in Hy; try tauto. destruct Hy as [? [? _]]. assert (a = 0%nat) as -> by lia.
    apply elem_of_cons in Hin as [Hin|Hin%elem_of_list_singleton]; injection Hin as ->;
      (assert (b = 0%nat \/ b = 1%nat) as [->| ->] by lia); cbn in He;
      repeat (apply elem_of_cons in He as [He|He]; [injection He; intros; subst; try lra; try done|]); by apply elem_of_nil in He.
Qed.
