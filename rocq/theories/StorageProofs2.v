(** Proofs about StorageModel: the stored portion of a chunk, the field buffer. *)
From stdpp Require Import base list list_numbers numbers option gmap countable sets.
From Coq Require Import NArith ZArith Lia.
From Verif Require Import IndexSpec LoopsModel LoopsProofs NDArrayModel NDArrayProofs NDArrayOps NDArrayProps StreamerModel StreamerProps CodecModel
  BBoxModel BBoxProps DownsampleModel DownsampleProps RTreeModel ChunkMetaModel ChunkCacheModel ChunkCacheSpec LibraryModel LibrarySpec LibraryProofs6
  RebuildModel RebuildSpec RebuildProofs RebuildProofs4 RecordModel RecordSpec StorageModel StorageSpec StorageProofs.
From Verif Require Import IndexSpec.

Section portion.
Context (n : nat) (c : list Z * list Z) (Hc : sim_chunk n c) (dstart dshape : list N) (L1 : length dstart = n) (L2 : length dshape = n)
  (HD : Forall2 (fun s m => s + m < 2 ^ 64)%N dstart dshape) (HP : Forall (fun m => 0 < m)%N dshape).
Notation csh := (chunk_shape c.1 c.2).
Notation lo := (lo c).
Notation ps := (part_start dstart c).
Notation pe := (part_end dstart dshape c).
Notation pn := (part_shape dstart dshape c).

Lemma part_lengths : length ps = n /\ length pe = n /\ length pn = n.
Proof using Hc L1 L2. destruct Hc as (A & B & _). unfold part_shape, part_start, part_end. rewrite !zip_with_length. lia. Qed.
Lemma part_at i : (i < n)%nat -> ps !!! i = (N.max (lo !!! i) (dstart !!! i) - dstart !!! i)%N /\
  pe !!! i = (N.min (lo !!! i + csh !!! i) (dstart !!! i + dshape !!! i) - dstart !!! i)%N /\ pn !!! i = N.to_nat (pe !!! i - ps !!! i).
Proof using Hc L1 L2.
  intros Hi. destruct Hc as (A & B & _). destruct part_lengths as (P1 & P2 & P3). destruct (shape_at n c Hc i Hi) as [E1 E2]. destruct (chunk_at n c Hc) as (_ & _ & Hat). destruct (Hat i Hi) as (_ & _ & E3 & _). split; [|split].
  - unfold part_start. rewrite zip_at by lia. by rewrite E2.
  - unfold part_end. rewrite zip_at by (rewrite ?zip_with_length; lia). rewrite zip_at by lia. cbn [fst snd]. rewrite E1, E2. do 2 f_equal. lia.
  - unfold part_shape. by rewrite zip_at by lia.
Qed.
Lemma dom_at i : (i < n)%nat -> (0 < dshape !!! i /\ dstart !!! i + dshape !!! i < W)%N.
Proof using HD HP L1 L2. intros Hi. rewrite F2_at in HD. rewrite F1_at in HP. destruct HD as [_ HD']. split; [apply HP; lia|]. apply HD'. lia. Qed.
Lemma small_at i : (i < n)%nat -> (0 < csh !!! i /\ lo !!! i + csh !!! i < 2147483648)%N.
Proof using Hc. intros Hi. pose proof (chunk_small n c Hc) as Hs. rewrite F2_at, shape_length with (n := n) in Hs by done. destruct Hs as [_ Hs]. exact (Hs i Hi). Qed.
Lemma meets_at : part_meets dstart dshape c = true <-> forall i, (i < n)%nat -> (lo !!! i < dstart !!! i + dshape !!! i /\ dstart !!! i < lo !!! i + csh !!! i)%N.
Proof using Hc L1 L2 HD HP.
  destruct part_lengths as (P1 & P2 & P3). unfold part_meets. rewrite forallb_forall. split.
  - intros H i Hi. assert (pn !!! i ∈ pn) as Hin by (apply elem_of_list_lookup_total_2; lia). apply elem_of_list_In, H, Nat.ltb_lt in Hin. destruct (part_at i Hi) as (E1 & E2 & E3). rewrite E3, E1, E2 in Hin. lia.
  - intros H x (i & Hi)%elem_of_list_In%elem_of_list_lookup. pose proof (lookup_lt_Some _ _ _ Hi) as Hlt. apply list_lookup_total_correct in Hi as <-. destruct (part_at i ltac:(lia)) as (E1 & E2 & E3). rewrite E3, E1, E2. specialize (H i ltac:(lia)).
    destruct (small_at i ltac:(lia)). destruct (dom_at i ltac:(lia)). apply Nat.ltb_lt. lia.
Qed.
Lemma dom_W : Forall2 (fun a m => a + m < W)%N dstart dshape. Proof using HD. exact HD. Qed.
Lemma chunk_W : Forall2 (fun a m => a + m < W)%N lo csh.
Proof using Hc. clear L1 L2 HD HP. eapply Forall2_impl; [exact (chunk_small n c Hc)|]. intros a m [_ H]. rewrite WE. lia. Qed.
Lemma overlaps_meets : chunk_overlaps lo csh dstart dshape = part_meets dstart dshape c.
Proof using Hc L1 L2 HD HP.
  apply eq_bool_prop_intro. rewrite !Is_true_true. rewrite meets_at. pose proof (lo_length n c Hc). pose proof (shape_length n c Hc).
  rewrite overlaps_at by (try exact dom_W; try exact chunk_W; lia). by rewrite lo_length with (n := n).
Qed.
Definition pstart : list N := zip_with N.add dstart ps.
Lemma pstart_at i : (i < n)%nat -> pstart !!! i = N.max (lo !!! i) (dstart !!! i).
Proof using Hc L1 L2. intros Hi. destruct part_lengths as (P1 & _). unfold pstart. rewrite zip_at by lia. destruct (part_at i Hi) as (-> & _). lia. Qed.
Lemma pstart_length : length pstart = n.
Proof using Hc L1 L2. destruct part_lengths as (P1 & _). unfold pstart. rewrite zip_with_length. lia. Qed.
Lemma portion_ok : storage_portion dstart dshape c = Some (if part_meets dstart dshape c then Some (pstart, vof_nat pn) else None).
Proof using Hc L1 L2 HD HP.
  unfold storage_portion. rewrite (start_ok n c Hc). cbn [mbind option_bind]. rewrite overlaps_meets. destruct (part_meets dstart dshape c) eqn:Em; [|done]. do 2 f_equal.
  pose proof (lo_length n c Hc) as LL. pose proof (shape_length n c Hc) as LS. destruct part_lengths as (P1 & P2 & P3). pose proof pstart_length as LP. rewrite meets_at in Em.
  rewrite overlap_spec by (try exact dom_W; try exact chunk_W; rewrite ?LL; try exact Em; lia).
  assert (zip_with N.max lo dstart = pstart) as Es. { apply eq_at. rewrite zip_with_length. split; [lia|]. intros i Hi. rewrite zip_at by lia. by rewrite pstart_at by lia. }
  rewrite Es. f_equal. unfold vof_nat. apply eq_at. rewrite !zip_with_length, fmap_length. split; [lia|]. intros i Hi. rewrite fmap_at by lia. rewrite !zip_at by (rewrite ?zip_with_length; lia).
  destruct (part_at i ltac:(lia)) as (E1 & E2 & E3). rewrite E3, E2, E1, pstart_at by lia. lia.
Qed.
(** The portion consists of the cells of the chunk in the domain. *)
Lemma portion_cells x : part_meets dstart dshape c = true -> domain pstart (vof_nat pn) x <-> cell_in c x /\ domain dstart dshape x.
Proof using Hc L1 L2 HD HP.
  intros Em. rewrite meets_at in Em. destruct part_lengths as (P1 & P2 & P3). pose proof pstart_length as LP. rewrite (cell_in_at n c Hc), !domain_at by (unfold vof_nat; rewrite ?fmap_length; lia). rewrite LP, L1.
  assert (forall i, (i < n)%nat -> (pstart !!! i <= x !!! i < pstart !!! i + vof_nat pn !!! i)%N <-> (lo !!! i <= x !!! i < lo !!! i + csh !!! i)%N /\ (dstart !!! i <= x !!! i < dstart !!! i + dshape !!! i)%N) as Hi.
  { intros i Hi. unfold vof_nat. rewrite fmap_at by lia. destruct (part_at i Hi) as (E1 & E2 & E3). rewrite E3, E2, E1, pstart_at by lia. specialize (Em i Hi). destruct (small_at i Hi). destruct (dom_at i Hi). lia. }
  split.
  - intros [Lx Hx]. split; (split; [done|]); intros i H; apply (Hi i H), Hx, H.
  - intros [[Lx Hx] [_ Hy]]. split; [done|]. intros i H. apply (Hi i H). split; [apply Hx, H|apply Hy, H].
Qed.
Lemma meets_iff : part_meets dstart dshape c = true <-> exists x, cell_in c x /\ domain dstart dshape x.
Proof using Hc L1 L2 HD HP.
  split.
  - intros Em. exists pstart. apply (portion_cells _ Em). rewrite meets_at in Em. destruct part_lengths as (P1 & P2 & P3). pose proof pstart_length as LP. apply domain_at; [unfold vof_nat; rewrite fmap_length; lia|]. split; [done|]. intros i Hi. rewrite LP in Hi. unfold vof_nat. rewrite fmap_at by lia.
    destruct (part_at i Hi) as (E1 & E2 & E3). rewrite E3, E2, E1, pstart_at by lia. specialize (Em i Hi). destruct (small_at i Hi). destruct (dom_at i Hi). lia.
  - intros (x & [_ Hx]%(cell_in_at n c Hc) & [_ Hy]%domain_at); [|lia]. apply meets_at. intros i Hi. specialize (Hx i Hi). specialize (Hy i ltac:(lia)). lia.
Qed.
Lemma portion_small : part_meets dstart dshape c = true -> Forall2 (fun a m => a + m < W)%N pstart (vof_nat pn).
Proof using Hc L1 L2 HD HP.
  intros Em. rewrite meets_at in Em. destruct part_lengths as (P1 & P2 & P3). pose proof pstart_length as LP. apply F2_at. unfold vof_nat. rewrite fmap_length. split; [lia|]. intros i Hi. rewrite fmap_at by lia.
  destruct (part_at i ltac:(lia)) as (E1 & E2 & E3). rewrite E3, E2, E1, pstart_at by lia. specialize (Em i ltac:(lia)). destruct (small_at i ltac:(lia)). rewrite WE. lia.
Qed.
Lemma rel_ok : part_meets dstart dshape c = true -> vwsub pstart dstart = ps.
Proof using Hc L1 L2 HD HP.
  intros Em. pose proof (portion_small Em) as Hs. destruct part_lengths as (P1 & P2 & P3). pose proof pstart_length as LP. rewrite vwsub_le.
  - apply eq_at. rewrite zip_with_length. split; [lia|]. intros i Hi. rewrite zip_at by lia. unfold pstart. rewrite zip_at by lia. lia.
  - apply F2_at. split; [lia|]. intros i Hi. unfold pstart. rewrite zip_at by lia. lia.
  - apply F1_at. intros i Hi. apply F2_at in Hs as [_ Hs]. specialize (Hs i ltac:(unfold vof_nat; rewrite fmap_length; lia)). lia.
Qed.

(** ** The field buffer *)
Context (vd : nat) (junk : N) (E : list Z -> list N) (HE : forall p, length (E p) = vd /\ Forall (fun b => b < 2 ^ 32)%N (E p)).
Definition at_cell (x : list nat) : list N := zip_with N.add pstart (vof_nat x).
Lemma at_cell_domain x : in_shape pn x -> domain pstart (vof_nat pn) (at_cell x).
Proof using Hc L1 L2.
  destruct part_lengths as (P1 & P2 & P3). pose proof pstart_length as LP. intros (_ & Lx & Hx)%in_box_at. apply domain_at; [unfold vof_nat; rewrite fmap_length; lia|]. unfold at_cell, vof_nat. rewrite zip_with_length, fmap_length.
  split; [lia|]. intros i Hi. rewrite zip_at by (rewrite ?fmap_length; lia). rewrite !fmap_at by lia. specialize (Hx i ltac:(lia)). lia.
Qed.
Lemma at_cell_back z : domain pstart (vof_nat pn) z -> in_shape pn (vto_nat (zip_with N.sub z pstart)) /\ at_cell (vto_nat (zip_with N.sub z pstart)) = z.
Proof using Hc L1 L2.
  destruct part_lengths as (P1 & P2 & P3). pose proof pstart_length as LP. intros [Lz Hz]%domain_at; [|unfold vof_nat; rewrite fmap_length; lia]. split.
  - apply in_box_at. unfold vto_nat. rewrite replicate_length, fmap_length, zip_with_length. split; [done|]. split; [lia|]. intros i Hi. rewrite lookup_total_replicate_2 by done. specialize (Hz i ltac:(lia)). unfold vof_nat in Hz. rewrite fmap_at in Hz by lia.
    rewrite fmap_at by (rewrite zip_with_length; lia). rewrite zip_at by lia. lia.
  - unfold at_cell. rewrite vof_to. apply eq_at. rewrite !zip_with_length. split; [lia|]. intros i Hi. specialize (Hz i ltac:(lia)). rewrite !zip_at by (rewrite ?zip_with_length; lia). lia.
Qed.
Lemma at_cell_inj x y : in_shape pn x -> in_shape pn y -> at_cell x = at_cell y -> x = y.
Proof using Hc L1 L2.
  destruct part_lengths as (P1 & P2 & P3). pose proof pstart_length as LP. intros (_ & Lx & _)%in_box_at (_ & Ly & _)%in_box_at He. apply eq_at. split; [lia|]. intros i Hi. apply (f_equal (fun l => l !!! i)) in He.
  unfold at_cell, vof_nat in He. rewrite !zip_at in He by (rewrite ?fmap_length; lia). rewrite !fmap_at in He by lia. lia.
Qed.
Lemma store_pts (Em : part_meets dstart dshape c = true) pts b : float_array vd b -> a_shape b = 1%nat :: pn -> (forall p, p ∈ pts -> exists x, p = centre x /\ cell_in c x) ->
  exists b', foldM (store_grid_point vd pstart (vof_nat pn) E) b pts = Some b' /\ float_array vd b' /\ a_shape b' = 1%nat :: pn /\
    (forall x, in_shape pn x -> centre (at_cell x) ∈ pts -> aread vd b' (0%nat :: x) = Some (E (centre (at_cell x)))) /\
    (forall x, in_shape pn x -> centre (at_cell x) ∉ pts -> aread vd b' (0%nat :: x) = aread vd b (0%nat :: x)).
Proof using Hc L1 L2 HD HP HE.
  pose proof pstart_length as LP. destruct part_lengths as (P1 & P2 & P3).
  revert b. induction pts as [|p pts IH]; intros b Hb Hs Hp.
  { exists b. split; [done|]. split; [done|]. split; [done|]. split; [|done]. intros x _ Hx. by apply elem_of_nil in Hx. }
  cbn [foldM]. destruct (Hp p ltac:(left)) as (z & -> & Hz).
  assert (forall q, q ∈ pts -> exists x, q = centre x /\ cell_in c x) as Hp' by (intros q Hq; apply Hp; by right).
  assert (forall u v, centre u = centre v -> u = v) as Hinj. { intros u v Huv. apply (f_equal (fmap grid_index)) in Huv. by rewrite !centre_index in Huv. }
  unfold store_grid_point at 2. rewrite centre_index. pose proof Hz as Hz'. apply (cell_in_at n c Hc) in Hz' as [Lz Hzi].
  assert (Forall (fun a => a < W)%N z) as HzW. { apply F1_at. intros i Hi. specialize (Hzi i ltac:(lia)). destruct (small_at i ltac:(lia)). rewrite WE. lia. }
  destruct (chunk_contains pstart (vof_nat pn) z) eqn:Ec.
  - assert (domain pstart (vof_nat pn) z) as Hdz. { apply domain_at; [unfold vof_nat; rewrite fmap_length; lia|]. split; [lia|]. apply contains_at; [unfold vof_nat; rewrite fmap_length; lia|lia|exact (portion_small Em)|exact HzW|exact Ec]. }
    destruct (at_cell_back z Hdz) as [Hin Hback].
    assert (vwsub z pstart = zip_with N.sub z pstart) as ->. { apply vwsub_le; [exact (proj1 Hdz)|exact HzW]. }
    destruct (HE (centre z)) as [Hlen Hfl].
    destruct (write_float vd b (0%nat :: vto_nat (zip_with N.sub z pstart)) (E (centre z)) Hb) as (b1 & -> & Hb1 & Hs1 & Hr1 & Ho1); [rewrite Hs; apply in_shape_cons; eexists _, _; split; [done|]; split; [lia|exact Hin]|exact Hlen|exact Hfl|].
    cbn [mbind option_bind]. destruct (IH b1 Hb1 ltac:(congruence) Hp') as (b' & -> & Hb' & Hs' & Hi' & Ho'). exists b'. split; [done|]. split; [done|]. split; [done|]. split.
    + intros x Hx Hxin. destruct (decide (centre (at_cell x) ∈ pts)) as [Hd|Hd]; [by apply Hi'|]. apply elem_of_cons in Hxin as [Hxz|Hxin]; [|done]. apply Hinj in Hxz. rewrite Ho' by done. rewrite Hxz. rewrite <- Hr1. do 2 f_equal.
      apply at_cell_inj; [done|done|]. by rewrite Hback.
    + intros x Hx Hxn. apply not_elem_of_cons in Hxn as [Hne Hxn]. rewrite Ho' by done. apply Ho1; [rewrite Hs; apply in_shape_cons; eexists _, _; split; [done|]; split; [lia|exact Hx]|]. intros Heq. injection Heq as ->. apply Hne. by rewrite Hback.
  - cbn [mbind option_bind]. destruct (IH b Hb Hs Hp') as (b' & -> & Hb' & Hs' & Hi' & Ho'). exists b'. split; [done|]. split; [done|]. split; [done|]. split.
    + intros x Hx Hxin. apply elem_of_cons in Hxin as [Hxz|Hxin]; [|by apply Hi']. apply Hinj in Hxz. subst z. exfalso. pose proof (at_cell_domain x Hx) as Hdx. apply domain_at in Hdx as [_ Hdx]; [|unfold vof_nat; rewrite fmap_length; lia].
      assert (chunk_contains pstart (vof_nat pn) (at_cell x) = true) as Hct; [|rewrite Hct in Ec; discriminate Ec]. apply contains_at; [unfold vof_nat; rewrite fmap_length; lia|lia|exact (portion_small Em)|exact HzW|exact Hdx].
    + intros x Hx Hxn. apply not_elem_of_cons in Hxn as [_ Hxn]. by apply Ho'.
Qed.
Lemma cut_ok (cut : list nat -> bool) inds b sh : float_array vd b -> a_shape b = sh -> (forall x, x ∈ inds -> in_shape sh x) ->
  exists b', foldM (fun b ind => if cut ind then awrite vd b ind (replicate vd 0%N) else Some b) b inds = Some b' /\ float_array vd b' /\ a_shape b' = sh /\
    forall x, in_shape sh x -> aread vd b' x = if decide (x ∈ inds) then if cut x then Some (replicate vd 0%N) else aread vd b x else aread vd b x.
Proof using.
  revert b. induction inds as [|y inds IH]; intros b Hb Hs Hin.
  { exists b. split; [done|]. split; [done|]. split; [done|]. intros x _. destruct (decide (x ∈ [])) as [Hx|_]; [by apply elem_of_nil in Hx|done]. }
  cbn [foldM]. assert (forall x, x ∈ inds -> in_shape sh x) as Hin' by (intros x Hx; apply Hin; by right).
  destruct (cut y) eqn:Ey.
  - destruct (write_float vd b y (replicate vd 0%N) Hb) as (b1 & -> & Hb1 & Hs1 & Hr1 & Ho1); [rewrite Hs; apply Hin; left|apply replicate_length|by apply Forall_replicate|].
    cbn [mbind option_bind]. destruct (IH b1 Hb1 ltac:(congruence) Hin') as (b' & -> & Hb' & Hs' & Hv). exists b'. split; [done|]. split; [done|]. split; [done|]. intros x Hx. rewrite Hv by done.
    destruct (decide (x = y)) as [->|Hne].
    + rewrite Ey, Hr1. rewrite (decide_True (P := y ∈ y :: inds)) by left. by destruct (decide (y ∈ inds)).
    + rewrite Ho1 by (rewrite ?Hs; done). destruct (decide (x ∈ inds)) as [Hd|Hd]; [rewrite (decide_True (P := x ∈ y :: inds)) by (by right); done|]. rewrite (decide_False (P := x ∈ y :: inds)); [done|]. by apply not_elem_of_cons.
  - cbn [mbind option_bind]. destruct (IH b Hb Hs Hin') as (b' & -> & Hb' & Hs' & Hv). exists b'. split; [done|]. split; [done|]. split; [done|]. intros x Hx. rewrite Hv by done.
    destruct (decide (x = y)) as [->|Hne].
    + rewrite Ey. rewrite (decide_True (P := y ∈ y :: inds)) by left. by destruct (decide (y ∈ inds)).
    + destruct (decide (x ∈ inds)) as [Hd|Hd]; [rewrite (decide_True (P := x ∈ y :: inds)) by (by right); done|]. rewrite (decide_False (P := x ∈ y :: inds)); [done|]. by apply not_elem_of_cons.
Qed.
Lemma collect_ok (Hjunk : (junk < 2 ^ 32)%N) (Em : part_meets dstart dshape c = true) cut buf : float_array vd buf ->
  exists b, collect vd junk pstart (vof_nat pn) c E cut buf = Some b /\ float_array vd b /\ a_shape b = 1%nat :: pn /\
    forall x, in_shape pn x -> aread vd b (0%nat :: x) = Some (if cut (0%nat :: x) then replicate vd 0%N else E (centre (at_cell x))).
Proof using Hc L1 L2 HD HP HE.
  intros Hbuf. unfold collect. rewrite vto_of. destruct (resize_float vd junk (1%nat :: pn) buf Hjunk ltac:(done) Hbuf) as (b1 & -> & Hb1 & Hs1). cbn [mbind option_bind].
  destruct (points_ok n c Hc) as (pts & -> & Hpts). cbn [mbind option_bind].
  destruct (store_pts Em pts b1 Hb1 Hs1 (fun p Hp => proj1 (Hpts p) Hp)) as (b2 & -> & Hb2 & Hs2 & Hi & _). cbn [mbind option_bind].
  rewrite elem_loop_spec by (rewrite ?replicate_length; lia). cbn [mbind option_bind].
  destruct (cut_ok cut (box_elems (replicate (length (1%nat :: pn)) 0%nat) (1%nat :: pn)) b2 (1%nat :: pn) Hb2 Hs2) as (b & -> & Hb & Hs & Hv); [intros x Hx; by apply elem_of_box_elems in Hx|].
  exists b. split; [done|]. split; [done|]. split; [done|]. intros x Hx. assert (in_shape (1%nat :: pn) (0%nat :: x)) as Hx1 by (apply in_shape_cons; eexists _, _; split; [done|]; split; [lia|exact Hx]).
  rewrite Hv by done. rewrite decide_True by (by apply elem_of_box_elems). destruct (cut (0%nat :: x)); [done|]. apply Hi; [done|]. apply Hpts. exists (at_cell x). split; [done|].
  apply (portion_cells _ Em), at_cell_domain, Hx.
Qed.
End portion.

(** * Downsampling looks at the shape and the elements only *)
Lemma foldM_ext {S B} (f g : S -> B -> option S) l : (forall s x, f s x = g s x) -> forall s, foldM f s l = foldM g s l.
Proof. intros Hfg. induction l as [|x l IH]; intros s; cbn [foldM]; [done|]. rewrite Hfg. destruct (g s x); [|done]. cbn [mbind option_bind]. apply IH. Qed.
Lemma has_index_in sh x : has_index sh x = true -> in_shape sh x.
Proof. 
  revert x. induction sh as [|n sh IH]; intros [|i x]; cbn [has_index]; try discriminate 1; [done|]. intros [H1 H2]%andb_prop. apply in_shape_cons. eexists _, _. split; [done|]. split; [by apply Nat.ltb_lt|by apply IH].
Qed.
Lemma downsample_ext vd (junk : N) src src' start ds dst : a_shape src = a_shape src' -> (forall x, in_shape (a_shape src) x -> aread vd src x = aread vd src' x) ->
  downsample vd junk src start ds dst = downsample vd junk src' start ds dst.
Proof.
  intros Hs Hr. unfold downsample. rewrite <- Hs. destruct (aresize _ _ _ dst) as [dst1|]; [|done]. cbn [mbind option_bind]. destruct (elem_loop _ _ _) as [ks|]; [|done]. cbn [mbind option_bind].
  rewrite (foldM_ext _ (λ a k, if has_index (a_shape a) (vto_nat (vwsub (vof_nat k) (ds_first start ds))) && has_index (a_shape src) (vto_nat (vwsub (vwmul (vof_nat k) ds) start))
    then v ← aread vd src' (vto_nat (vwsub (vwmul (vof_nat k) ds) start)); awrite vd a (vto_nat (vwsub (vof_nat k) (ds_first start ds))) v else None)); [done|].
  intros a k. cbv zeta. destruct (has_index (a_shape a) _); [|done]. destruct (has_index (a_shape src) _) eqn:Eh; [|done]. cbn [andb]. by rewrite Hr by (by apply has_index_in).
Qed.
