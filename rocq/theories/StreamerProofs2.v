(** Files made of several pieces appended along one axis. *)
From stdpp Require Import base list list_numbers numbers option.
From Verif Require Import IndexSpec LoopsModel LoopsProofs NDArrayModel NDArrayProofs NDArrayOps NDArrayOps2 NDArrayProps
  CodecModel CodecProps NullSupModel NullSupProps StreamerModel StreamerProofs.
From Coq Require Import NArith Lia.

Lemma mjoin_app' {A} (l1 l2 : list (list A)) : mjoin (l1 ++ l2) = mjoin l1 ++ mjoin l2.
Proof. induction l1 as [|x l1 IH]; [done|]. simpl. change (mjoin (x :: l1)) with (x ++ mjoin l1). rewrite <- app_assoc, <- IH. done. Qed.

(** * Splitting the chunk loop along one axis *)
Definition sh2 (o : nat) (s : nat * nat) : nat * nat := ((o + s.1)%nat, (o + s.2)%nat).

Lemma steps_list_shift f o e cs cb : (0 < cs)%nat ->
  steps_list f (o + cb) (o + e) cs = sh2 o <$> steps_list f cb e cs.
Proof.
  intros Hcs. revert cb; induction f as [|f IH]; intros cb; simpl; [done|].
  destruct (Nat.ltb_spec (o + cb) (o + e)), (Nat.ltb_spec cb e); try lia; [|done].
  rewrite fmap_cons. unfold sh2 at 1. simpl. f_equal; [f_equal; lia|].
  replace (Nat.min (o + cb + cs) (o + e)) with (o + Nat.min (cb + cs) e)%nat by lia. apply IH.
Qed.
Lemma steps_list_app f k cb n1 n2 cs : (0 < cs)%nat -> (cb + k * cs = n1)%nat -> (n1 + n2 - cb <= f)%nat ->
  steps_list f cb (n1 + n2) cs = steps_list f cb n1 cs ++ (sh2 n1 <$> steps_list f 0 n2 cs).
Proof.
  intros Hcs. revert cb f; induction k as [|k IH]; intros cb f Hk Hf.
  - assert (cb = n1) as -> by lia.
    replace (steps_list f n1 n1 cs) with (@nil (nat * nat)) by (destruct f; simpl; [done|]; by rewrite Nat.ltb_irrefl).
    rewrite app_nil_l. rewrite <- (steps_list_shift f n1 n2 cs 0) by done. f_equal. lia.
  - destruct f as [|f]; [simpl in Hk; lia|]. cbn [steps_list].
    destruct (Nat.ltb_spec cb (n1 + n2)); [|simpl in Hk; lia]. destruct (Nat.ltb_spec cb n1); [|simpl in Hk; lia].
    rewrite Nat.min_l by (simpl in Hk; lia). rewrite Nat.min_l by (simpl in Hk; lia). rewrite <- app_comm_cons. f_equal.
    rewrite IH by (simpl in Hk; lia). f_equal. f_equal. change (steps_list f 0 n2 cs = steps_list (S f) 0 n2 cs). apply steps_list_fuel; simpl in Hk; lia.
Qed.
Lemma steps_list_single f e cs : (0 < f)%nat -> (e <= cs)%nat -> (0 < e)%nat -> steps_list f 0 e cs = [(0, e)]%nat.
Proof.
  destruct f as [|f]; [lia|]. intros _ He H0. cbn [steps_list]. destruct (Nat.ltb_spec 0 e); [|lia].
  rewrite Nat.min_r by lia. destruct f; simpl; [done|]. by rewrite Nat.ltb_irrefl.
Qed.
Lemma steps_list_zero f cs : steps_list f 0 0 cs = [].
Proof. by destruct f. Qed.

(** Displacement by [o] along [axis]. *)
Definition bump (axis o : nat) (x : list nat) : list nat := alter (Nat.add o) axis x.
Definition bump2 (axis o : nat) (c : list nat * list nat) := (bump axis o c.1, bump axis o c.2).
Definition zeros (n : nat) : list nat := replicate n 0%nat.

Lemma box_chunks_append f axis sh cs n1 n2 c0 :
  Forall (fun c => 0 < c)%nat cs -> length cs = length sh -> sh !! axis = Some n1 -> cs !! axis = Some c0 -> (c0 | n1)%nat ->
  (forall j s c, (j < axis)%nat -> sh !! j = Some s -> cs !! j = Some c -> (s <= c)%nat) ->
  (loop_fuel (<[axis := n1 + n2]> sh) <= f)%nat ->
  box_chunks f (zeros (length sh)) (<[axis := n1 + n2]> sh) cs =
    box_chunks f (zeros (length sh)) sh cs ++ (bump2 axis n1 <$> box_chunks f (zeros (length sh)) (<[axis := n2]> sh) cs).
Proof.
  intros Hpos. revert axis cs Hpos; induction sh as [|s sh IH]; intros axis cs Hpos Hl Ha Hca Hdiv Hsm Hf; [done|].
  destruct cs as [|c cs]; [done|]. inversion Hpos as [|? ? Hc0 Hpos']; subst.
  destruct axis as [|axis]; cbn [lookup list_lookup] in *.
  - injection Ha as ->. injection Hca as ->. destruct Hdiv as [k Hk]. simpl in Hf.
    simpl. rewrite (steps_list_app f k 0 n1 n2 c0) by lia. rewrite fmap_app, mjoin_app'. f_equal.
    generalize (box_chunks f (replicate (length sh) 0%nat) sh cs). intros l. generalize (steps_list f 0 n2 c0). intros ss.
    induction ss as [|s ss IHs]; [done|]. rewrite !fmap_cons, !mjoin_cons. rewrite fmap_app, IHs. f_equal.
    rewrite <- list_fmap_compose. apply list_fmap_ext. intros ? [r1 r2] _. done.
  - change (<[S axis := (n1 + n2)%nat]> (s :: sh)) with (s :: <[axis := (n1 + n2)%nat]> sh) in *.
    change (<[S axis := n2]> (s :: sh)) with (s :: <[axis := n2]> sh).
    change (zeros (length (s :: sh))) with (0%nat :: zeros (length sh)). cbn [box_chunks]. simpl in Hf.
    pose proof (Hsm 0%nat s c ltac:(lia) eq_refl eq_refl) as Hsc.
    rewrite (IH axis cs); auto; [|intros j s' c' Hj; apply (Hsm (S j)); lia|lia].
    destruct (decide (s = 0)%nat) as [->|Hs0].
    { rewrite steps_list_zero. done. }
    rewrite steps_list_single by lia. simpl. rewrite !app_nil_r, fmap_app. f_equal.
    rewrite <- !list_fmap_compose. apply list_fmap_ext. intros ? [r1 r2] _. done.
Qed.

(** * Reading several pieces *)
Definition axis_extent {A} (axis : nat) (p : ndarr A) : nat := default 0%nat (a_shape p !! axis).

(** A piece with its mode agrees with the common shape off the axis. *)
Definition piece_ok (vd : nat) (sh cs : list nat) (axis : nat) (p : smode * ndarr N) : Prop :=
  p.1 <> Automatic /\ wf_owned vd p.2 /\ words_ok p.2 /\ a_shape p.2 = <[axis := axis_extent axis p.2]> sh /\
  (N.of_nat (nullsup_buflen (volume (a_shape p.2)) vd) < 2 ^ 64)%N /\
  (p.1 = NullSuppressed -> N.of_nat (volume (zip_with Nat.min cs (a_shape p.2))) < 2 ^ 32)%N.

Lemma volume_mono sh sh' : Forall2 le sh sh' -> (volume sh <= volume sh')%nat.
Proof. induction 1; simpl; [done|]. by apply Nat.mul_le_mono. Qed.
Lemma nullsup_buflen_mono n n' vd : (n <= n')%nat -> (nullsup_buflen n vd <= nullsup_buflen n' vd)%nat.
Proof.
  intros. unfold nullsup_buflen, int_div_ceil. apply Nat.add_le_mono; [by apply Nat.mul_le_mono_r|].
  apply Nat.div_le_mono; lia.
Qed.
Lemma vsub_le_end b e sh : Forall2 le b e -> Forall2 le e sh -> Forall2 le (vsub e b) sh.
Proof.
  intros H. revert sh. induction H as [|b0 e0 b e H0 H IH]; intros sh Hs; inversion Hs; subst; [constructor|].
  unfold vsub in *. simpl. constructor; [lia|auto].
Qed.
Lemma Forall2_le_min a b c : Forall2 le a b -> Forall2 le a c -> Forall2 le a (zip_with Nat.min b c).
Proof. intros H. revert c. induction H; intros c Hc; inversion Hc; subst; simpl; constructor; [lia|auto]. Qed.
Lemma Forall2_lt_le b e : Forall2 lt b e -> Forall2 le b e.
Proof. intros; eapply Forall2_impl; [done|]. simpl; lia. Qed.

Lemma chunk_list_ok vd m (a : ndarr N) cs f :
  Forall (fun c => 0 < c)%nat cs ->
  (N.of_nat (nullsup_buflen (volume (a_shape a)) vd) < 2 ^ 64)%N ->
  (m = NullSuppressed -> N.of_nat (volume (zip_with Nat.min cs (a_shape a))) < 2 ^ 32)%N ->
  Forall (fun c => Forall2 le c.1 c.2 /\ Forall2 le c.2 (a_shape a) /\
     (N.of_nat (nullsup_buflen (volume (vsub c.2 c.1)) vd) < 2 ^ 64)%N /\
     (m = NullSuppressed -> N.of_nat (volume (vsub c.2 c.1)) < 2 ^ 32)%N) (box_chunks f (zeros (length (a_shape a))) (a_shape a) cs).
Proof.
  intros Hpos H1 H2. apply list.Forall_forall. intros c Hc.
  apply box_chunks_sizes in Hc as (_ & _ & Hlt & Hsz & _ & Hend); [|done].
  apply Forall2_lt_le in Hlt. pose proof (vsub_le_end _ _ _ Hlt Hend) as Hle. split_and!; auto.
  - pose proof (nullsup_buflen_mono _ _ vd (volume_mono _ _ Hle)). lia.
  - intros Hm. specialize (H2 Hm). pose proof (volume_mono _ _ (Forall2_le_min _ _ _ Hsz Hle)). lia.
Qed.

(** Bytes of one piece, as written by the serialiser. *)
Lemma ser_all_chunks_Some vd m a cs :
  m <> Automatic -> Forall (fun c => 0 < c)%nat cs -> length cs = length (a_shape a) ->
  ser_all_chunks vd m a cs = match mapM (ser_chunk vd m a) (box_chunks (loop_fuel (a_shape a)) (zeros (length (a_shape a))) (a_shape a) cs) with
    | Some bs => WOk (mjoin bs) | None => WUndef end.
Proof.
  intros Hm Hpos Hl. unfold ser_all_chunks, array_chunk_loop. rewrite chunk_loop_spec by (rewrite ?replicate_length; done).
  cbn [mbind option_bind]. unfold zeros. destruct m; [done| |]; by destruct (mapM _ _).
Qed.

Lemma bump_vadd axis o x : vadd (<[axis := o]> (zeros (length x))) x = bump axis o x.
Proof.
  unfold bump, zeros, vadd. revert axis; induction x as [|x0 x IH]; intros axis; [by destruct axis|].
  destruct axis as [|axis]; simpl.
  - f_equal. clear IH. induction x; simpl; f_equal; auto.
  - f_equal. apply IH.
Qed.
Lemma bump_length axis o x : length (bump axis o x) = length x.
Proof. apply alter_length. Qed.
Lemma bump_bump axis o o' x : bump axis o (bump axis o' x) = bump axis (o + o') x.
Proof.
  unfold bump. revert axis; induction x as [|x0 x IH]; intros [|axis]; simpl; try done; f_equal; [lia|apply IH].
Qed.
Lemma bump_0 axis x : bump axis 0 x = x.
Proof. unfold bump. revert axis; induction x as [|x0 x IH]; intros [|axis]; simpl; try done; f_equal. apply IH. Qed.
Lemma bump_le axis o n e sh : (o + n <= default 0 (sh !! axis))%nat -> Forall2 le e (<[axis := n]> sh) -> Forall2 le (bump axis o e) sh.
Proof.
  unfold bump. intros Ho. revert axis sh Ho. induction e as [|e0 e IH]; intros axis sh Ho H.
  - destruct sh; [constructor|]. destruct axis; inversion H.
  - destruct sh as [|s sh]; [destruct axis; inversion H|]. destruct axis as [|axis]; simpl in *; inversion H; subst; constructor; auto; try lia. by apply IH.
Qed.
Lemma bump_not_in axis o b e y : (default 0 (y !! axis) < o)%nat -> (axis < length b)%nat -> ~ in_box (bump axis o b) (bump axis o e) y.
Proof.
  unfold bump. revert axis e y; induction b as [|b0 b IH]; intros axis e y Ho Hl; simpl in *; [lia|].
  destruct axis as [|axis], e as [|e0 e], y as [|y0 y]; simpl; try tauto; intros [H1 H2]; simpl in *; try lia.
  eapply IH; [| |exact H2]; [done|lia].
Qed.

Fixpoint pieces_chunks (f : nat) (cs : list nat) (axis o : nat) (ps : list (smode * ndarr N)) : list (list nat * list nat) :=
  match ps with
  | [] => []
  | p :: ps' => (bump2 axis o <$> box_chunks f (zeros (length (a_shape p.2))) (a_shape p.2) cs)
                  ++ pieces_chunks f cs axis (o + axis_extent axis p.2) ps'
  end.
Definition total (axis : nat) (ps : list (smode * ndarr N)) : nat := sum_list_with (fun p => axis_extent axis p.2) ps.

Lemma pieces_chunks_shift f cs axis o o' ps : bump2 axis o <$> pieces_chunks f cs axis o' ps = pieces_chunks f cs axis (o + o') ps.
Proof.
  revert o'; induction ps as [|p ps IH]; intros o'; simpl; [done|]. rewrite fmap_app, IH. f_equal.
  - rewrite <- list_fmap_compose. apply list_fmap_ext. intros ? [c1 c2] _. unfold compose, bump2. simpl. by rewrite !bump_bump.
  - f_equal. lia.
Qed.
Lemma loop_fuel_insert_mono axis n n' sh : (n <= n')%nat -> (loop_fuel (<[axis := n]> sh) <= loop_fuel (<[axis := n']> sh))%nat.
Proof.
  intros Hn. unfold loop_fuel. revert axis; induction sh as [|s sh IH]; intros [|axis]; simpl; try lia.
  specialize (IH axis). lia.
Qed.
(** The chunk loop over the whole file is the concatenation of the pieces' loops. *)
Lemma pieces_chunks_spec vd f sh cs axis c0 ps :
  Forall (fun c => 0 < c)%nat cs -> length cs = length sh -> (axis < length sh)%nat -> cs !! axis = Some c0 ->
  (forall j s c, (j < axis)%nat -> sh !! j = Some s -> cs !! j = Some c -> (s <= c)%nat) ->
  Forall (piece_ok vd sh cs axis) ps ->
  (forall k p, S k < length ps -> ps !! k = Some p -> (c0 | axis_extent axis p.2))%nat ->
  (loop_fuel (<[axis := total axis ps]> sh) <= f)%nat -> ps <> [] ->
  box_chunks f (zeros (length sh)) (<[axis := total axis ps]> sh) cs = pieces_chunks f cs axis 0 ps.
Proof.
  intros Hpos Hl Hax Hc0 Hsm Hps. induction Hps as [|p ps Hp Hps IH]; intros Hdiv Hf Hne; [done|].
  destruct Hp as (_ & _ & _ & Hsh & _). simpl pieces_chunks.
  assert (length (a_shape p.2) = length sh) as Hlp by (rewrite Hsh; apply insert_length).
  destruct (decide (ps = [])) as [->|Hne'].
  - unfold total. simpl. rewrite app_nil_r, Nat.add_0_r, Hlp, <- Hsh. symmetry.
    transitivity (id <$> box_chunks f (zeros (length sh)) (a_shape p.2) cs); [|apply list_fmap_id].
    apply list_fmap_ext. intros ? [c1 c2] _. unfold bump2. simpl. by rewrite !bump_0.
  - unfold total in *. simpl in *. set (n1 := axis_extent axis p.2) in *. set (n2 := sum_list_with _ ps) in *.
    assert (<[axis := (n1 + n2)%nat]> sh = <[axis := (n1 + n2)%nat]> (a_shape p.2)) as E1 by (rewrite Hsh; by rewrite list_insert_insert).
    assert (<[axis := n2]> sh = <[axis := n2]> (a_shape p.2)) as E2 by (rewrite Hsh; by rewrite list_insert_insert).
    rewrite E1, <- Hlp. rewrite E1 in Hf. rewrite (box_chunks_append f axis (a_shape p.2) cs n1 n2 c0); auto; try lia.
    + f_equal.
      * symmetry. transitivity (id <$> box_chunks f (zeros (length (a_shape p.2))) (a_shape p.2) cs); [|apply list_fmap_id].
        apply list_fmap_ext. intros ? [c1 c2] _. unfold bump2. simpl. by rewrite !bump_0.
      * rewrite <- E2, Hlp. rewrite IH; auto.
        -- rewrite pieces_chunks_shift. f_equal. lia.
        -- intros k q Hk Hq. apply (Hdiv (S k)); [lia|done].
        -- rewrite E2. etrans; [|exact Hf]. apply loop_fuel_insert_mono. lia.
    + rewrite Hsh. apply list_lookup_insert. done.
    + apply (Hdiv 0%nat); [|done]. destruct ps; [done|]. simpl. lia.
    + intros j s c Hj Hs. apply (Hsm j); auto. rewrite Hsh, list_lookup_insert_ne in Hs by lia. done.
Qed.

Lemma read_pieces vd sh cs axis f (ps : list (smode * ndarr N)) :
  Forall (fun c => 0 < c)%nat cs -> length cs = length sh -> (axis < length sh)%nat ->
  Forall (piece_ok vd sh cs axis) ps -> (forall p, p ∈ ps -> (loop_fuel (a_shape p.2) <= f)%nat) ->
  exists bss, mapM (fun p => match ser_all_chunks vd p.1 p.2 cs with WOk b => Some b | _ => None end) ps = Some bss /\
    forall t o rest, wf_owned vd t -> a_shape t = <[axis := default 0%nat (a_shape t !! axis)]> sh ->
      (o + total axis ps <= default 0 (a_shape t !! axis))%nat ->
      exists t', foldM (deser_chunk vd) (t, mjoin bss ++ rest) (pieces_chunks f cs axis o ps) = Some (t', rest) /\
        (api_array vd t -> api_array vd t') /\ wf_owned vd t' /\ a_shape t' = a_shape t /\
        (forall k p x, ps !! k = Some p -> in_shape (a_shape p.2) x ->
           aread vd t' (bump axis (o + total axis (take k ps)) x) = restored vd p.1 <$> aread vd p.2 x) /\
        (forall y, in_shape (a_shape t) y -> (default 0 (y !! axis) < o)%nat -> aread vd t' y = aread vd t y).
Proof.
  intros Hpos Hl Hax Hps. induction Hps as [|p ps Hp Hps IH]; intros Hf.
  - exists []. split; [done|]. intros t o rest Ht Hsh Ho. exists t. split_and!; auto. intros k p x Hk. done.
  - destruct IH as (bss & Hbss & IH). { intros q Hq. apply Hf. by right. }
    destruct Hp as (Hm & Hwf & Hw & Hsh & Hb1 & Hb2).
    assert (length (a_shape p.2) = length sh) as Hlp by (rewrite Hsh; apply insert_length).
    assert (a_shape p.2 !! axis = Some (axis_extent axis p.2)) as Hlk by (rewrite Hsh; by apply list_lookup_insert).
    destruct (ser_deser_chunks vd p.1 p.2 (box_chunks f (zeros (length (a_shape p.2))) (a_shape p.2) cs)) as (bs & Hbs & Hd); auto.
    { by apply chunk_list_ok. }
    exists (mjoin bs :: bss). split.
    { cbn [mapM]. rewrite ser_all_chunks_Some by (auto; lia).
      rewrite (box_chunks_fuel _ f) by (auto; apply Hf; left). rewrite Hbs. cbn [mbind option_bind]. by rewrite Hbss. }
    intros t o rest Ht Hsht Ho. unfold total in Ho; simpl in Ho. fold (total axis ps) in Ho.
    assert (length (a_shape t) = length sh) as Hlt by (rewrite Hsht; apply insert_length).
    destruct (Hd t (<[axis := o]> (zeros (length sh))) (mjoin bss ++ rest)) as (t1 & Ht1 & Hat1 & Hwt1 & Hsh1 & Hin1 & Hout1); auto.
    { rewrite insert_length. unfold zeros. rewrite replicate_length. lia. }
    { by apply box_chunks_disjoint. }
    { apply list.Forall_forall. intros c Hc. apply box_chunks_sizes in Hc as (_ & Hlc & _ & _ & _ & Hend); [|done].
      unfold zeros in Hlc at 1. rewrite replicate_length in Hlc. replace (length sh) with (length c.2) by lia. rewrite bump_vadd.
      apply (bump_le _ _ (axis_extent axis p.2)); [lia|]. rewrite Hsht, list_insert_insert, <- Hsh. done. }
    destruct (IH t1 (o + axis_extent axis p.2)%nat rest) as (t' & Ht' & Hat' & Hwt' & Hsh' & Hin' & Hout'); auto.
    { by rewrite Hsh1. } { rewrite Hsh1. lia. }
    exists t'. split_and!; auto.
    + rewrite mjoin_cons. cbn [pieces_chunks]. rewrite <- app_assoc.
      assert (forall {X} (g : X -> list nat * list nat -> option X) l1 l2 s, foldM g s (l1 ++ l2) = (s1 ← foldM g s l1; foldM g s1 l2)) as foldM_app.
      { clear. intros X g l1. induction l1 as [|c l1 IH]; intros l2 s; cbn [foldM app]; [done|]. destruct (g s c); [|done]. cbn. apply IH. }
      rewrite foldM_app.
      assert (bump2 axis o <$> box_chunks f (zeros (length (a_shape p.2))) (a_shape p.2) cs =
              (fun c => (vadd (<[axis:=o]> (zeros (length sh))) c.1, vadd (<[axis:=o]> (zeros (length sh))) c.2)) <$>
                box_chunks f (zeros (length (a_shape p.2))) (a_shape p.2) cs) as ->.
      { apply list_fmap_ext. intros k c Hc%elem_of_list_lookup_2. apply box_chunks_sizes in Hc as (Hl1 & Hl2 & _); [|done].
        unfold zeros in Hl1, Hl2 at 1. rewrite replicate_length in Hl1, Hl2. unfold bump2. f_equal; rewrite <- bump_vadd; do 3 f_equal; lia. }
      rewrite Ht1. cbn [mbind option_bind]. exact Ht'.
    + congruence.
    + intros [|k] q x Hk Hx; cbn [lookup list_lookup] in Hk.
      * injection Hk as <-. unfold total; simpl. rewrite Nat.add_0_r.
        destruct (box_chunks_cover f (zeros (length (a_shape p.2))) (a_shape p.2) cs x) as (c & Hc & Hcx); auto; try lia.
        { apply Hf. left. }
        pose proof (in_shape_length _ _ Hx) as Hlx.
        assert (bump axis o x = vadd (<[axis := o]> (zeros (length sh))) x) as Hbx by (rewrite <- bump_vadd; do 3 f_equal; lia).
        rewrite <- (Hin1 c x Hc Hcx), <- Hbx.
        apply Hout'.
        -- rewrite Hsh1, Hsht. apply in_shape_forall2. rewrite Hsh in Hx. apply in_shape_forall2 in Hx.
           apply Forall2_same_length_lookup_2. { rewrite bump_length, insert_length. lia. }
           intros i a b Ha Hb. rewrite Forall2_lookup in Hx. specialize (Hx i). unfold bump in Ha. destruct (decide (i = axis)) as [->|Hi].
           ++ rewrite list_lookup_alter in Ha. rewrite list_lookup_insert in Hb by done. rewrite list_lookup_insert in Hx by done.
              inversion Hx as [u v Huv E1 E2|]; subst. rewrite <- E1 in Ha. simpl in Ha. injection Ha as <-. injection Hb as <-. lia.
           ++ rewrite list_lookup_alter_ne in Ha by done. rewrite list_lookup_insert_ne in Hb by done. rewrite list_lookup_insert_ne in Hx by done.
              rewrite Ha, Hb in Hx. by inversion Hx.
        -- unfold bump. rewrite list_lookup_alter.
           apply in_shape_forall2 in Hx. rewrite Forall2_lookup in Hx. specialize (Hx axis). rewrite Hlk in Hx.
           inversion Hx as [u v Huv E1 E2|]; subst. simpl. lia.
      * rewrite <- (Hin' k q x Hk Hx). f_equal. f_equal. unfold total; simpl. lia.
    + intros y Hy Hyo. rewrite Hout'; [|by rewrite Hsh1|lia].
      apply Hout1; [done|]. intros c Hc. apply box_chunks_sizes in Hc as (Hl1 & Hl2 & _); [|done].
      unfold zeros in Hl1, Hl2 at 1. rewrite replicate_length in Hl1, Hl2.
      replace (length sh) with (length c.1) at 1 by lia. replace (length sh) with (length c.2) by lia. rewrite !bump_vadd.
      apply bump_not_in; [done|lia].
Qed.
