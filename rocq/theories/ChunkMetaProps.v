(** Property theorems C32, C46. *)
From stdpp Require Import base list list_numbers numbers option.
From Coq Require Import NArith Reals Lra Lia.
From Verif Require Import BBoxModel BBoxProps CodecModel CodecProps DownsampleModel DownsampleProps InterpModel InterpProps IndexSpec ChunkMetaModel.

(** The records the program can hold: made by the constructor, then grown and axis-swapped, or renumbered; ids come from a 32-bit counter
    (ChunkIndex::m_next_chunk_id, DistributedNDVecArray.hh:164, whose type is the POSIX id_t). *)
Inductive meta_of (dims : nat) : chunk_meta -> Prop :=
  | meta_new ty path id start shape ov :
      length start = dims -> length shape = dims -> Forall (fun x => x < 2 ^ 64)%N start -> Forall (fun x => x < 2 ^ 64)%N shape ->
      (ov < 2 ^ 64)%N -> (ty < 2 ^ 64)%N -> (id < 2 ^ 32)%N ->
      (N.of_nat (length path) < 2 ^ 64)%N -> Forall (fun b => b < 256)%N path ->
      meta_of dims (mk_meta ty path id start shape ov)
  | meta_grow m m' axis x : meta_of dims m -> (x < 2 ^ 64)%N -> grow_chunk axis x m = Some m' -> meta_of dims m'
  | meta_swap m m' i j : meta_of dims m -> swap_meta i j m = Some m' -> meta_of dims m'
  | meta_id m id : meta_of dims m -> (id < 2 ^ 32)%N ->
      meta_of dims (ChunkMeta (cm_type m) (cm_path m) id (cm_pos m) (cm_shape m) (cm_start m) (cm_end m) (cm_overlap m) (cm_off m)).

(** All fields follow from those that are written. *)
Definition coherent (dims : nat) (m : chunk_meta) : Prop :=
  dom (metac dims) m /\ m = mk_meta (cm_type m) (cm_path m) (cm_id m) (cm_start m) (cm_shape m) (cm_overlap m).

Lemma wadd_lt a b : (wadd a b < 2 ^ 64)%N.
Proof. apply N.mod_lt. done. Qed.
Lemma vbump_spec axis x v v' : vbump axis x v = Some v' -> exists c, v !! axis = Some c /\ v' = <[axis := wadd c x]> v.
Proof. unfold vbump. destruct (v !! axis); [|done]. intros [= <-]. eauto. Qed.
Lemma vswap_spec i j v v' : vswap i j v = Some v' -> exists a b, v !! i = Some a /\ v !! j = Some b /\ v' = <[j := a]> (<[i := b]> v).
Proof. unfold vswap. destruct (v !! i) as [a|], (v !! j) as [b|]; try done. intros [= <-]. eauto 6. Qed.
Lemma vswap_dom i j v v' (P : N -> Prop) : vswap i j v = Some v' -> Forall P v -> length v' = length v /\ Forall P v'.
Proof.
  intros (a & b & Ha & Hb & ->)%vswap_spec H. rewrite !insert_length. split; [done|].
  apply Forall_insert; [apply Forall_insert; [done|]|]; eapply list.Forall_lookup_1; eauto.
Qed.
Lemma coherent_of dims m : meta_of dims m -> coherent dims m.
Proof.
  induction 1 as [ty path id start shape ov|m m' axis x Hm [(D1 & D2 & D3 & [D4 D4'] & [D5 D5'] & D6) E] Hx Hg|m m' i j Hm [(D1 & D2 & D3 & [D4 D4'] & [D5 D5'] & D6) E] Hs|m id Hm [(D1 & D2 & D3 & [D4 D4'] & [D5 D5'] & D6) E] Hid].
  - split; [|done]. repeat (first [assumption | split]).
  - rewrite E in Hg. unfold grow_chunk in Hg. simpl in Hg.
    destruct (vbump axis x (vwadd (cm_start m) (cm_shape m))) as [e|] eqn:He; [|done].
    destruct (vbump axis x (cm_shape m)) as [sh|] eqn:Hsh; [|done]. injection Hg as <-.
    apply vbump_spec in He as (c & Hc & ->), Hsh as (c' & Hc' & ->).
    split.
    { refine (conj D1 (conj D2 (conj D3 (conj (conj D4 D4') (conj (conj _ _) D6))))); cbn [cm_shape]; [by rewrite insert_length|].
      apply Forall_insert; [done|]. apply wadd_lt. }
    unfold mk_meta. cbn [cm_type cm_path cm_id cm_pos cm_shape cm_start cm_end cm_overlap cm_off]. f_equal. unfold vwadd in *. rewrite lookup_zip_with in Hc. destruct (cm_start m !! axis) as [s|] eqn:Hs; [|done].
    simpl in Hc. rewrite Hc' in Hc. simpl in Hc. injection Hc as <-.
    rewrite <- (list_insert_id (cm_start m) axis s Hs) at 2. rewrite <- insert_zip_with. f_equal.
    unfold wadd. rewrite N.add_mod_idemp_l, N.add_mod_idemp_r by done. f_equal. lia.
  - rewrite E in Hs. unfold swap_meta in Hs. simpl in Hs.
    destruct (vswap i j (cm_start m)) as [s|] eqn:Hs1; [|done]. cbn [mbind option_bind] in Hs.
    destruct (vswap i j (vwadd (cm_start m) (cm_shape m))) as [e|] eqn:He; [|done]. cbn [mbind option_bind] in Hs.
    destruct (vswap i j (cm_shape m)) as [sh|] eqn:Hsh; [|done]. cbn [mbind option_bind] in Hs.
    destruct (vswap i j _) as [o|] eqn:Ho in Hs; [|done]. injection Hs as <-.
    destruct (vswap_dom _ _ _ _ _ Hs1 D4'), (vswap_dom _ _ _ _ _ Hsh D5').
    split.
    { refine (conj D1 (conj D2 (conj D3 (conj (conj _ _) (conj (conj _ _) D6))))); cbn [cm_shape cm_start]; (done || congruence). }
    unfold mk_meta. cbn [cm_type cm_path cm_id cm_pos cm_shape cm_start cm_end cm_overlap cm_off].
    apply vswap_spec in Hs1 as (a & b & Ha & Hb & ->), Hsh as (a' & b' & Ha' & Hb' & ->), He as (a1 & b1 & Ha1 & Hb1 & ->), Ho as (a2 & b2 & Ha2 & Hb2 & ->).
    unfold vwadd in *. rewrite lookup_zip_with in Ha1, Hb1. rewrite Ha in Ha1. rewrite Hb in Hb1. simpl in Ha1, Hb1. rewrite Ha' in Ha1. rewrite Hb' in Hb1.
    simpl in Ha1, Hb1. injection Ha1 as <-. injection Hb1 as <-.
    rewrite list_lookup_fmap in Ha2, Hb2. rewrite Ha in Ha2. rewrite Hb in Hb2. simpl in Ha2, Hb2. injection Ha2 as <-. injection Hb2 as <-.
    f_equal; [by rewrite <- !insert_zip_with|by rewrite !list_fmap_insert].
  - split; [exact (conj D1 (conj D2 (conj Hid (conj (conj D4 D4') (conj (conj D5 D5') D6)))))|]. rewrite E. done.
Qed.

Lemma metac_rt dims m rest : coherent dims m -> dec (metac dims) (enc (metac dims) m ++ rest) = Some (m, rest).
Proof.
  intros [(D1 & D2 & D3 & D4 & D5 & D6) E]. unfold metac, dec at 1, enc at 1. rewrite <- !app_assoc.
  rewrite u64_rt by done. cbn [mbind option_bind]. rewrite str_rt by done. cbn [mbind option_bind].
  rewrite N.mod_small by exact D3. rewrite u32_rt by done. cbn [mbind option_bind]. rewrite (arr_rt dims u64 u64_rt) by done. cbn [mbind option_bind].
  rewrite (arr_rt dims u64 u64_rt) by done. cbn [mbind option_bind]. rewrite u64_rt by done. cbn [mbind option_bind].
  by rewrite <- E.
Qed.

(** C32: one record, and a list of records as in the index file. *)
Theorem C32_chunk_metadata_round_trip dims m rest :
  meta_of dims m -> dec (metac dims) (enc (metac dims) m ++ rest) = Some (m, rest).
Proof. intros H. apply metac_rt. by apply coherent_of. Qed.
Lemma index_rt dims ms rest : (N.of_nat (length ms) < 2 ^ 64)%N -> Forall (coherent dims) ms ->
  dec (index_file dims) (enc (index_file dims) ms ++ rest) = Some (ms, rest).
Proof.
  intros Hn H. unfold index_file, CodecModel.vec, dec at 1, enc at 1. rewrite <- app_assoc, u64_rt by done. cbn [mbind option_bind].
  rewrite Nat2N.id. clear Hn. induction H as [|m ms Hm _ IH]; [done|].
  unfold enc_all. rewrite list.fmap_cons, mjoin_cons, <- app_assoc. cbn [length dec_n]. rewrite metac_rt by done. cbn [mbind option_bind].
  unfold enc_all in IH. by rewrite IH.
Qed.
Theorem C32_index_file_round_trip dims ms rest : (N.of_nat (length ms) < 2 ^ 64)%N -> Forall (meta_of dims) ms ->
  dec (index_file dims) (enc (index_file dims) ms ++ rest) = Some (ms, rest).
Proof. intros Hn H. apply index_rt; [done|]. eapply list.Forall_impl; [done|]. intros. by apply coherent_of. Qed.
Print Assumptions C32_index_file_round_trip.
(** The Green's-function record, for all bit patterns of its nine floats. *)
Theorem C32_green_metadata_round_trip s e i rest :
  Forall (fun v => length v = 3%nat /\ Forall (fun x => x < 2 ^ 32)%N v) [s; e; i] ->
  dec greenc (enc greenc (mk_green s e i) ++ rest) = Some (mk_green s e i, rest).
Proof.
  intros (Hs & (He & (Hi & _)%list.Forall_cons)%list.Forall_cons)%list.Forall_cons.
  unfold greenc, dec at 1, enc at 1. simpl gm_start. simpl gm_end. simpl gm_interval. rewrite <- !app_assoc.
  rewrite !(arr_rt 3 f32 u32_rt) by done. cbn [mbind option_bind].
  rewrite !(arr_rt 3 f32 u32_rt) by done. cbn [mbind option_bind].
  rewrite !(arr_rt 3 f32 u32_rt) by done. done.
Qed.
Print Assumptions C32_green_metadata_round_trip.
Example C32_nonvacuous : exists m, meta_of 3 m /\ cm_shape m = [5; 2; 9]%N /\ cm_off m = [0; 2 ^ 64 - 1; 0]%N /\
  dec (index_file 3) (enc (index_file 3) [m; m]) = Some ([m; m], []).
Proof.
  destruct (grow_chunk 2 4 (mk_meta 1 [97; 46] 7 [1; 0; 1] [5; 2; 5] 1))%N as [m|] eqn:E; [|discriminate].
  assert (meta_of 3 m) as Hm.
  { eapply (meta_grow _ _ _ _ 4%N); [|reflexivity|exact E]. apply meta_new; first [reflexivity | repeat constructor]. }
  exists m. split_and!; [done|..].
  - vm_compute in E. injection E as <-. done.
  - vm_compute in E. injection E as <-. done.
  - rewrite <- (app_nil_r (enc _ _)). rewrite (C32_index_file_round_trip 3 [m; m] []); [done|done|by repeat constructor].
Qed.

(** * C46 *)
(** [ind] lies in the chunk's region extended by the overlap on every axis (as integers, no wrap-around). *)
Definition in_extended (start shape : list N) (ov : N) (ind : list N) : Prop :=
  Forall2 (fun s i => Z.of_N s - Z.of_N ov <= Z.of_N i)%Z start ind /\
  Forall2 (fun e i => i < e + ov)%N (zip_with N.add start shape) ind.
(** The extended region does not reach 2^64, and neither does the shape of the stored array. *)
Definition fits (start shape : list N) (ov : N) : Prop :=
  Forall (fun e => e + ov < 2 ^ 64)%N (zip_with N.add start shape) /\ Forall (fun n => n + 2 * ov < 2 ^ 64)%N shape.

Lemma local_axis s ov i : (s < W)%N -> (ov < W)%N -> (i < W)%N -> (Z.of_N s - Z.of_N ov <= Z.of_N i)%Z -> (i + ov - s < W)%N ->
  wsub i (wsub s ov) = (i + ov - s)%N.
Proof.
  intros Hs Ho Hi Hle Hlt. unfold wsub. destruct (N.le_gt_cases ov s).
  - replace (s + W - ov)%N with (s - ov + 1 * W)%N by lia. rewrite N.mod_add, (N.mod_small (s - ov)) by (done || lia).
    replace (i + W - (s - ov))%N with (i + ov - s + 1 * W)%N by lia. rewrite N.mod_add, N.mod_small by (done || lia). done.
  - rewrite (N.mod_small (s + W - ov)) by lia. replace (i + W - (s + W - ov))%N with (i + ov - s)%N by lia. by rewrite N.mod_small.
Qed.

Theorem C46_local_index_exact ty path id start shape ov ind :
  length shape = length start -> (ov < 2 ^ 64)%N -> fits start shape ov -> in_extended start shape ov ind ->
  let l := local_ind (mk_meta ty path id start shape ov) ind in
  Forall2 (fun li si => Z.of_N li = Z.of_N si.1 - Z.of_N si.2 + Z.of_N ov)%Z l (zip ind start) /\
  Forall2 (fun li n => li < n + 2 * ov)%N l shape.
Proof.
  intros Hlen Hov Hfit [H1 H2]. cbv zeta. unfold local_ind, mk_meta; cbn [cm_off].
  assert (length ind = length start) as Hi by (symmetry; by eapply Forall2_length).
  revert shape ind Hlen Hfit H1 H2 Hi. induction start as [|s start IH]; intros [|n shape] [|i ind] Hlen Hfit H1 H2 Hi; try done.
  { split; constructor. }
  apply Forall2_cons_1 in H1 as [H1 H1'], H2 as [H2 H2']. destruct Hfit as [[Hf Hfit]%list.Forall_cons [Hg Hfit']%list.Forall_cons].
  assert (wsub i (wsub s ov) = i + ov - s)%N as Hl by (apply local_axis; unfold W; lia).
  destruct (IH shape ind) as [I1 I2]; [by injection Hlen|done|done|done|by injection Hi|]. rewrite list.fmap_cons. unfold vwsub in *.
  cbn [zip_with]. rewrite Hl. split; constructor; try done; cbn [fst snd]; lia.
Qed.
Print Assumptions C46_local_index_exact.

(** Growing a chunk and swapping axes keep the offset right: the records of [meta_of] are those of the constructor. *)
Theorem C46_offset_kept dims m ind :
  meta_of dims m -> fits (cm_start m) (cm_shape m) (cm_overlap m) -> in_extended (cm_start m) (cm_shape m) (cm_overlap m) ind ->
  Forall2 (fun li si => Z.of_N li = Z.of_N si.1 - Z.of_N si.2 + Z.of_N (cm_overlap m))%Z (local_ind m ind) (zip ind (cm_start m)) /\
  Forall2 (fun li n => li < n + 2 * cm_overlap m)%N (local_ind m ind) (cm_shape m).
Proof.
  intros [(D1 & D2 & D3 & [D4 _] & [D5 _] & D6) E]%coherent_of Hf Hin. rewrite E. simpl.
  apply C46_local_index_exact; try done. congruence.
Qed.
Print Assumptions C46_offset_kept.

(** Real coordinates: the local coordinate is the global one shifted by start - overlap. *)
Theorem C46_local_coordinate_exact ty path id start shape ov (xs : list R) (is : list N) (fs : list R) :
  length shape = length start -> (ov < 2 ^ 64)%N -> fits start shape ov -> in_extended start shape ov is ->
  length fs = length is -> Forall (fun f => 0 <= f < 1)%R fs -> xs = zip_with (fun i f => INR (N.to_nat i) + f)%R is fs ->
  local_coord (mk_meta ty path id start shape ov) xs =
    Some (zip_with (fun x s => x - INR (N.to_nat s) + INR (N.to_nat ov))%R xs start).
Proof.
  intros Hlen Hov Hfit [H1 H2] Hfl Hf ->. unfold local_coord, mk_meta; simpl cm_off.
  assert (length is = length start) as Hi by (symmetry; by eapply Forall2_length).
  revert shape is fs Hlen Hfit H1 H2 Hi Hfl Hf. induction start as [|s start IH]; intros [|n shape] [|i is] [|f fs] Hlen Hfit H1 H2 Hi Hfl Hf; try done.
  apply Forall2_cons_1 in H1 as [H1 H1'], H2 as [H2 H2']. destruct Hfit as [[Hfi Hfit]%list.Forall_cons [Hg Hfit']%list.Forall_cons]. apply list.Forall_cons in Hf as [Hf0 Hf].
  rewrite list.fmap_cons. cbn [zip_with mapM fst snd]. rewrite modf_spec by done. cbn [mbind option_bind].
  rewrite N2Nat.id, N.mod_small, (local_axis s ov i) by (unfold W; lia).
  rewrite IH with (shape := shape); [|by injection Hlen|done|done|done|by injection Hi|by injection Hfl|done]. cbn [mbind option_bind]. do 2 f_equal.
  rewrite N2Nat.inj_sub, N2Nat.inj_add, minus_INR, plus_INR by lia. ring.
Qed.
Print Assumptions C46_local_coordinate_exact.

(** Non-vacuity, with the wrap-around: a chunk starting at 0 with overlap 2; index 1 is at local position 3, and the
    stored offset is 2^64 - 2. *)
Example C46_nonvacuous :
  let m := mk_meta 0 [] 0 [0; 5]%N [4; 4]%N 2 in
  cm_off m = [2 ^ 64 - 2; 3]%N /\ fits [0; 5]%N [4; 4]%N 2 /\ in_extended [0; 5]%N [4; 4]%N 2 [1; 3]%N /\ local_ind m [1; 3]%N = [3; 0]%N.
Proof. split_and!; [done|split; repeat constructor|split; repeat constructor; simpl; lia|done]. Qed.
