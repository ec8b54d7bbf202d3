(** C69: the signal of several tracks, and of a shower. *)
From stdpp Require Import base list list_numbers numbers option.
From Coq Require Import Reals Lra Lia NArith ZArith.
From Verif Require Import NDArrayModel CodecModel StreamerModel StreamerProps RTreeModel RTreeInsert RTreeProps KernelModel KernelProps ChunkCacheModel ChunkCacheSpec LibraryModel LibrarySpec RebuildSpec SignalModel SignalProps ReadModel ReadSpec ReadProps
  ShowerModel ShowerSpec ShowerProofs ShowerProps EmissionModel EmissionSpec.
Local Open Scope R_scope.
Local Opaque int_max.

Section props.
Context (junk : N) (start interval : R * R * R) (L : lib) (HL : lib_ok L).
Context (St : lstate) (U : Z -> Z -> Z -> Prop) (g : Z -> Z -> Z -> nat -> R) (t0 samp : R) (num : nat).
Hypothesis Hsamples : has_samples St U g.
Hypothesis Hsamp : 0 < samp.
Hypothesis Hint : 0 < interval.1.1 /\ 0 < interval.1.2 /\ 0 < interval.2.
Local Notation G := (coords start interval).

Lemma plus_samples_plus f1 f2 signal : plus_samples t0 samp num f2 (plus_samples t0 samp num f1 signal) = plus_samples t0 samp num (fun t => f1 t + f2 t) signal.
Proof.
  unfold plus_samples. apply list_eq. intros i. rewrite !list_lookup_imap. destruct (signal !! i); [|done]. cbn [fmap option_fmap option_map]. f_equal. destruct (i <? num)%nat; ring.
Qed.
Lemma plus_samples_zero signal : plus_samples t0 samp num (fun _ => 0) signal = signal.
Proof.
  unfold plus_samples. apply list_eq. intros i. rewrite list_lookup_imap. destruct (signal !! i); [|done]. cbn [fmap option_fmap option_map]. f_equal. destruct (i <? num)%nat; ring.
Qed.
Lemma plus_samples_ext f1 f2 signal : (forall t, f1 t = f2 t) -> plus_samples t0 samp num f1 signal = plus_samples t0 samp num f2 signal.
Proof. intros H. unfold plus_samples. apply imap_ext. intros i x _. by rewrite H. Qed.
Lemma plus_samples_length f signal : length (plus_samples t0 samp num f signal) = length signal.
Proof. apply imap_length. Qed.

(** ** One track *)
Lemma one_track K ignore ib sb weight l seg n signal : session 2 3 junk L l St -> has_overlap St K -> K = linear \/ K = keys -> (1 <= ib)%nat -> (1 <= sb)%nat ->
  seen start interval St K U g ignore t0 samp num seg n -> (num <= length signal)%nat ->
  exists l', apply_accumulate_on junk start interval ib sb K ignore seg t0 samp num weight signal l = Done (plus_samples t0 samp num (direct_sum G (grid_field K g) seg n weight) signal, l') /\
    session 2 3 junk L l' St.
Proof using All.
  intros Hs Hov HK Hib Hsb (H1 & H2 & H3 & H4) Hlen. destruct Hint as (I1 & I2 & I3).
  apply (C63_signal junk start interval L HL l St K U ignore g ib sb seg t0 samp weight num n signal); try assumption; lra.
Qed.

Theorem C69_accumulate l seg n signal : session 2 3 junk L l St -> has_overlap St keys -> seen start interval St keys U g false t0 samp num seg n -> (num <= length signal)%nat ->
  exists l', accumulate_signal junk start interval seg t0 samp num signal l = Done (plus_samples t0 samp num (direct_sum G (grid_field keys g) seg n 1) signal, l') /\ session 2 3 junk L l' St.
Proof using All. intros. apply one_track; auto; lia. Qed.

Theorem C69_corsika l x0 y0 z0 s0 x1 y1 z1 s1 q n weight signal : session 2 3 junk L l St -> has_overlap St linear ->
  let seg := Segment (x0, y0, z0) (x1, y1, z1) s0 s1 q in seen start interval St linear U g true t0 samp num seg n -> (num <= length signal)%nat ->
  exists l', c8_calculate junk start interval (x0, y0, z0, s0) (x1, y1, z1, s1) q t0 samp num signal weight l
    = Done (plus_samples t0 samp num (direct_sum G (grid_field linear g) seg n weight) signal, l') /\ session 2 3 junk L l' St.
Proof using All. intros. apply one_track; auto; lia. Qed.

(** ** Several tracks *)
(** The signal of several tracks is the sum of their signals. *)
Theorem C69_tracks tracks : has_overlap St keys -> Forall (fun sn => seen start interval St keys U g false t0 samp num sn.1 sn.2) tracks ->
  forall l signal, session 2 3 junk L l St -> (num <= length signal)%nat ->
  exists l', accumulate_tracks junk start interval (fst <$> tracks) t0 samp num signal l
    = Done (plus_samples t0 samp num (fun t => total start interval keys g 1 t tracks) signal, l') /\ session 2 3 junk L l' St.
Proof using All.
  intros Hov Hall. induction Hall as [|[seg n] tracks Hseg _ IH]; intros l signal Hs Hlen.
  - exists l. split; [|done]. cbn [accumulate_tracks fmap list_fmap rfold total foldr]. unfold accumulate_tracks. cbn. by rewrite plus_samples_zero.
  - destruct (C69_accumulate l seg n signal Hs Hov Hseg Hlen) as (l1 & E1 & Hs1). destruct (IH l1 (plus_samples t0 samp num (direct_sum G (grid_field keys g) seg n 1) signal) Hs1) as (l2 & E2 & Hs2).
    { by rewrite plus_samples_length. }
    exists l2. split; [|done]. unfold accumulate_tracks in *. change (fst <$> (seg, n) :: tracks) with (seg :: (fst <$> tracks)). cbn [rfold]. rewrite E1. cbn [mbind res_bind]. rewrite E2. rewrite plus_samples_plus. done.
Qed.

Lemma total_perm K weight t tr tr' : tr ≡ₚ tr' -> total start interval K g weight t tr = total start interval K g weight t tr'.
Proof using. induction 1 as [|a l l' _ IH|a b l|l1 l2 l3 _ IH1 _ IH2]; cbn [total foldr] in *; [done| | |congruence]; unfold total in *; cbn [foldr] in *; lra. Qed.

(** The order of the tracks does not matter. *)
Theorem C69_order tracks tracks' l signal : has_overlap St keys -> Forall (fun sn => seen start interval St keys U g false t0 samp num sn.1 sn.2) tracks -> tracks ≡ₚ tracks' ->
  session 2 3 junk L l St -> (num <= length signal)%nat ->
  exists signal' l1 l2, accumulate_tracks junk start interval (fst <$> tracks) t0 samp num signal l = Done (signal', l1) /\
    accumulate_tracks junk start interval (fst <$> tracks') t0 samp num signal l = Done (signal', l2).
Proof using All.
  intros Hov Hall Hp Hs Hlen. destruct (C69_tracks tracks Hov Hall l signal Hs Hlen) as (l1 & E1 & _).
  assert (Forall (fun sn => seen start interval St keys U g false t0 samp num sn.1 sn.2) tracks') as Hall'. { rewrite Forall_forall in Hall |- *. intros x Hx. apply Hall. by rewrite Hp. }
  destruct (C69_tracks tracks' Hov Hall' l signal Hs Hlen) as (l2 & E2 & _). exists (plus_samples t0 samp num (fun t => total start interval keys g 1 t tracks) signal), l1, l2. split; [done|].
  rewrite E2. do 2 f_equal. apply plus_samples_ext. intros t. by apply total_perm.
Qed.

(** ** A shower *)
(** The example computes twice the sum of the signals of the tracks of the shower: its loop over the tracks is in a loop of two turns. *)
Theorem C69_shower density h dt n m l : length (p_charge (h_profile h)) = length (p_grammage (h_profile h)) -> ends_after density h dt n -> (0 < n <= int_max)%nat ->
  0 < dt -> (forall x y z, 0 <= density x y z) -> has_overlap St keys -> session 2 3 junk L l St ->
  (forall i, (i + 1 < n)%nat -> seen start interval St keys U g false t0 samp num (Segment (in_ns (point h dt i)) (in_ns (point h dt (i + 1))) (INR i * dt) (INR (i + 1) * dt) 1) m) ->
  exists segs l', fill_tracks density h dt [] = Some segs /\ length segs = (n - 1)%nat /\
    shower_emission junk start interval density h dt t0 samp num l =
      Done ((fun j => 2 * total start interval keys g 1 (t0 + INR j * samp) ((fun seg => (seg, m)) <$> segs)) <$> seq 0 num, l') /\ session 2 3 junk L l' St.
Proof using All.
  intros Hlen Hend Hn Hdt Hd Hov Hs Hseen. destruct (C67_tracks density h dt n [] Hlen Hend Hn ltac:(lra) Hd) as (segs & Ef & Hl & Hsegs). change ([] ++ segs) with segs in Ef. unfold shower_emission. rewrite Ef. cbn [of_opt mbind res_bind].
  set (tr := (fun seg => (seg, m)) <$> segs). assert (fst <$> tr = segs) as Hfst. { unfold tr. rewrite <- list_fmap_compose. by rewrite list_fmap_id. }
  assert (Forall (fun sn => seen start interval St keys U g false t0 samp num sn.1 sn.2) tr) as Hall.
  { apply Forall_lookup. intros i [seg k] Hi. unfold tr in Hi. rewrite list_lookup_fmap in Hi. destruct (segs !! i) as [seg'|] eqn:E; [|discriminate]. injection Hi as <- <-. cbn [fst snd].
    destruct (Hsegs i seg' E) as (H1 & H2 & H3 & H4 & _). apply lookup_lt_Some in E. specialize (Hseen i ltac:(lia)). rewrite Nat.add_1_r in Hseen. destruct seg' as [a b c d q]. cbn in H1, H2, H3, H4. subst a b c d. exact Hseen. }
  destruct (C69_tracks tr Hov Hall l (replicate num 0) Hs) as (l1 & E1 & Hs1); [by rewrite replicate_length|]. rewrite Hfst in E1. rewrite E1. cbn [mbind res_bind].
  destruct (C69_tracks tr Hov Hall l1 (plus_samples t0 samp num (fun t => total start interval keys g 1 t tr) (replicate num 0)) Hs1) as (l2 & E2 & Hs2); [by rewrite plus_samples_length, replicate_length|]. rewrite Hfst in E2. rewrite E2.
  exists segs, l2. split; [done|]. split; [done|]. split; [|done]. do 2 f_equal. rewrite plus_samples_plus. apply list_eq. intros j. unfold plus_samples. rewrite list_lookup_imap, list_lookup_fmap.
  destruct (decide (j < num)%nat) as [Hj|Hj].
  - rewrite lookup_replicate_2, lookup_seq_lt by done. cbn [fmap option_fmap option_map]. rewrite (proj2 (Nat.ltb_lt _ _) Hj). f_equal. change (0 + j)%nat with j. fold tr. ring.
  - rewrite (lookup_ge_None_2 (replicate num 0)) by (rewrite replicate_length; lia). rewrite (lookup_ge_None_2 (seq 0 num)) by (rewrite seq_length; lia). done.
Qed.
End props.
