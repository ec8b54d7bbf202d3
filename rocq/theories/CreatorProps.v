(** C68: the library of showers. *)
From stdpp Require Import base list list_numbers numbers option.
From Coq Require Import Reals Lra Lia ZArith NArith.
From Flocq Require Import IEEE754.Binary IEEE754.Bits.
From Verif Require Import NDArrayModel CodecModel CodecProps ShowerModel ShowerSpec ShowerProofs ShowerProps CreatorModel CreatorSpec.
Local Open Scope R_scope.
Local Opaque int_max.

Lemma read_app k l s : length l = k -> read_bytes k (l ++ s) = Some (l, s).
Proof. intros <-. unfold read_bytes. rewrite app_length. rewrite (proj2 (Nat.leb_le _ _)) by lia. by rewrite take_app, drop_app. Qed.
Lemma read_doubles_app l s : Forall finite_double l -> read_doubles (length l) (mjoin (to_le 8 <$> l) ++ s) = Some (double_value <$> l, s).
Proof.
  induction 1 as [|b l [Hb Hf] _ IH]; [done|]. cbn [length read_doubles]. change (mjoin (to_le 8 <$> b :: l)) with (to_le 8 b ++ mjoin (to_le 8 <$> l)). rewrite <- app_assoc, read_app by apply to_le_length. cbn [mbind option_bind].
  rewrite of_to_le, N.mod_small by exact Hb. unfold double_of. rewrite Hf. cbn [mbind option_bind]. rewrite IH. done.
Qed.
Lemma read_entry e s : good_entry e -> read_shower (write_entry e ++ s) = Some (Some (Z.of_N (e_hadronic e), double_value (e_energy e), profile_of e, s)).
Proof.
  intros [Hl Hsz Hh [He Hf] Hd Hc]. unfold write_entry, read_shower. rewrite <- !app_assoc, read_app by apply to_le_length.
  rewrite of_to_le, N.mod_small by (change (256 ^ N.of_nat 4)%N with (2 ^ 32)%N; lia).
  rewrite read_app by apply to_le_length. cbn [mbind option_bind]. rewrite of_to_le, (N.mod_small (e_hadronic e)) by (change (256 ^ N.of_nat 4)%N with (2 ^ 32)%N; lia).
  rewrite (proj2 (N.ltb_lt (e_hadronic e) _) Hh). rewrite read_app by apply to_le_length. cbn [mbind option_bind]. rewrite of_to_le, N.mod_small by exact He. unfold double_of. rewrite Hf. cbn [mbind option_bind].
  rewrite (proj2 (N.ltb_lt _ _) Hsz), Nat2N.id, read_doubles_app by done. cbn [mbind option_bind]. rewrite <- Hl, read_doubles_app by done. cbn [mbind option_bind].
  unfold profile_of. do 4 f_equal. rewrite <- list_fmap_compose. f_equal. apply list_fmap_ext. intros i x _. cbn. field.
Qed.
Lemma write_entry_length e : (4 <= length (write_entry e))%nat.
Proof. unfold write_entry. rewrite app_length, to_le_length. lia. Qed.

(** What is in the maps after the entries [es] were registered. *)
Record holds (P : Z -> R -> list profile) (st : creator) : Prop := {
  ho_profiles : forall had x, c_profiles st had x = match P had x with [] => None | l => Some l end;
  ho_energies : forall had, NoDup (c_energies st had);
  ho_present : forall had x, x ∈ c_energies st had <-> P had x <> [] }.
Definition put (had : Z) (e : R) (p : profile) (P : Z -> R -> list profile) (h : Z) (x : R) : list profile :=
  P h x ++ if bool_decide (h = had) && (if Req_EM_T x e then true else false) then [p] else [].

Lemma holds_register had e p P st : holds P st -> holds (put had e p P) (register had e p st).
Proof.
  intros [H1 H2 H3]. unfold register, put. pose proof (H1 had e) as E. destruct (c_profiles st had e) as [l|] eqn:El.
  - assert (P had e <> []) as Hne by (destruct (P had e); done). constructor; cbn [c_profiles c_energies].
    + intros h x. destruct (bool_decide_reflect (h = had)) as [->|Hh]; cbn [andb]; [|by rewrite app_nil_r, H1]. destruct (Req_EM_T x e) as [->|Hx]; [|by rewrite app_nil_r, H1].
      rewrite El. cbn [default]. destruct (P had e) as [|a r]; [done|]. injection E as ->. done.
    + done.
    + intros h x. rewrite H3. destruct (bool_decide_reflect (h = had)) as [->|Hh]; cbn [andb]; [|by rewrite app_nil_r]. destruct (Req_EM_T x e) as [->|Hx]; [|by rewrite app_nil_r].
      split; intros _; [by destruct (P had e)|done].
  - assert (P had e = []) as Hnil by (destruct (P had e); done). assert (e ∉ c_energies st had) as Hni. { intros Hin%H3. done. }
    constructor; cbn [c_profiles c_energies].
    + intros h x. destruct (bool_decide_reflect (h = had)) as [->|Hh]; cbn [andb]; [|by rewrite app_nil_r, H1]. destruct (Req_EM_T x e) as [->|Hx]; [|by rewrite app_nil_r, H1].
      cbn [default]. by rewrite Hnil.
    + intros h. destruct (bool_decide_reflect (h = had)) as [->|Hh]; [|done]. apply list.NoDup_app. split; [done|]. split; [|apply list.NoDup_singleton]. intros x Hx ->%elem_of_list_singleton. done.
    + intros h x. destruct (bool_decide_reflect (h = had)) as [->|Hh]; cbn [andb]; [|by rewrite app_nil_r]. rewrite elem_of_app, elem_of_list_singleton, H3.
      destruct (Req_EM_T x e) as [->|Hx]; [|rewrite app_nil_r; tauto]. split; [intros _; by destruct (P had e)|auto].
Qed.

Lemma construct_spec jh je es : Forall good_entry es -> forall fuel st P, (length es <= fuel)%nat -> holds P st -> exists st',
  construct_loop jh je fuel (mjoin (write_entry <$> es)) st = Some st' /\
  holds (put jh je (Profile [] []) (fun h x => P h x ++ (profile_of <$> entries_of h x es))) st'.
Proof.
  induction 1 as [|e es He _ IH]; intros fuel st P Hf HP.
  - exists (register jh je (Profile [] []) st). split; [by destruct fuel|]. cbn [entries_of List.filter fmap list_fmap]. eapply holds_register. destruct HP as [H1 H2 H3]. constructor; intros; rewrite ?app_nil_r; auto.
  - destruct fuel as [|fuel]; [cbn in Hf; lia|]. change (mjoin (write_entry <$> e :: es)) with (write_entry e ++ mjoin (write_entry <$> es)). cbn [construct_loop]. rewrite read_entry by done. cbn [mbind option_bind].
    destruct (IH fuel (register (Z.of_N (e_hadronic e)) (double_value (e_energy e)) (profile_of e) st) _ ltac:(cbn in Hf; lia) (holds_register _ _ _ _ _ HP)) as (st' & E & Hst').
    exists st'. split; [exact E|]. destruct Hst' as [H1 H2 H3].
    assert (forall h x, put jh je (Profile [] []) (fun h x => P h x ++ (profile_of <$> entries_of h x (e :: es))) h x =
      put jh je (Profile [] []) (fun h x => put (Z.of_N (e_hadronic e)) (double_value (e_energy e)) (profile_of e) P h x ++ (profile_of <$> entries_of h x es)) h x) as Heq.
    { intros h x. unfold put. f_equal. unfold entries_of. cbn [List.filter]. unfold filed at 1. rewrite (bool_decide_ext (h = Z.of_N (e_hadronic e)) (Z.of_N (e_hadronic e) = h)) by (split; congruence).
      rewrite <- app_assoc. f_equal. destruct (bool_decide _); cbn [andb app]; [|done]. destruct (Req_EM_T (double_value (e_energy e)) x), (Req_EM_T x (double_value (e_energy e))); try congruence; done. }
    constructor; intros; rewrite ?Heq; auto.
Qed.

(** Every profile of the file is stored under its type and energy, in the order of the file; in addition an empty profile under whatever was in the uninitialised memory.
    Every energy of the file is stored once. *)
Theorem C68_construct jh je es : Forall good_entry es -> exists st, construct jh je (mjoin (write_entry <$> es)) = Some st /\ forall had,
  (forall x, default [] (c_profiles st had x) = (profile_of <$> entries_of had x es) ++ (if bool_decide (had = jh) && (if Req_EM_T x je then true else false) then [Profile [] []] else [])) /\
  NoDup (c_energies st had) /\
  forall x, x ∈ c_energies st had <-> (exists e, e ∈ es /\ Z.of_N (e_hadronic e) = had /\ double_value (e_energy e) = x) \/ (had = jh /\ x = je).
Proof.
  intros Hes. destruct (construct_spec jh je es Hes (length (mjoin (write_entry <$> es))) no_profiles (fun _ _ => [])) as (st & E & [H1 H2 H3]).
  - clear. induction es as [|e es IH]; [done|]. change (mjoin (write_entry <$> e :: es)) with (write_entry e ++ mjoin (write_entry <$> es)). rewrite app_length. pose proof (write_entry_length e). cbn [length]. lia.
  - constructor; cbn; [done| |]; intros; [constructor|]. split; [by intros ?%elem_of_nil|done].
  - exists st. split; [exact E|]. intros had. unfold put in H1, H3. cbn [app] in H1, H3. split; [|split; [done|]].
    + intros x. rewrite H1. by destruct ((profile_of <$> entries_of had x es) ++ _).
    + intros x. rewrite H3. assert ((profile_of <$> entries_of had x es) <> [] <-> exists e, e ∈ es /\ Z.of_N (e_hadronic e) = had /\ double_value (e_energy e) = x) as Hfil.
      { unfold entries_of. split.
        - intros Hne. destruct (List.filter (filed had x) es) as [|e r] eqn:Ef; [done|]. assert (In e (List.filter (filed had x) es)) as Hin by (rewrite Ef; by left).
          apply List.filter_In in Hin as [Hin Hfd]. exists e. apply elem_of_list_In in Hin. split; [done|]. unfold filed in Hfd. destruct (bool_decide_reflect (Z.of_N (e_hadronic e) = had)) as [->|]; [|done]. cbn [andb] in Hfd. by destruct (Req_EM_T _ _).
        - intros (e & Hin & H4 & H5) Hnil. apply fmap_nil_inv in Hnil. assert (In e (List.filter (filed had x) es)) as Hin2.
          { apply List.filter_In. split; [by apply elem_of_list_In|]. unfold filed. rewrite bool_decide_true by done. cbn [andb]. by destruct (Req_EM_T _ _). }
          rewrite Hnil in Hin2. done. }
      rewrite <- Hfil. destruct (bool_decide_reflect (had = jh)) as [->|Hh]; cbn [andb]; [destruct (Req_EM_T x je) as [->|Hx]|].
      * split; [auto|]. intros _ Hc. by apply app_eq_nil in Hc as [_ ?].
      * rewrite app_nil_r. split; [auto|]. intros [?|[_ ?]]; done.
      * rewrite app_nil_r. split; [auto|]. intros [?|[? _]]; done.
Qed.

Lemma closest_spec en l : forall e, let r := foldl (closest_step en) (e, Rabs (en - e)) l in
  (r.1 = e \/ r.1 ∈ l) /\ r.2 = Rabs (en - r.1) /\ Rabs (en - r.1) <= Rabs (en - e) /\ forall x, x ∈ l -> Rabs (en - r.1) <= Rabs (en - x).
Proof.
  induction l as [|a l IH]; intros e r. { cbn in r. subst r. cbn. split; [auto|]. split; [done|]. split; [lra|]. by intros x ?%elem_of_nil. }
  subst r. cbn [foldl]. destruct (Rlt_dec (Rabs (en - a)) (Rabs (en - e))) as [H|H].
  - assert (closest_step en (e, Rabs (en - e)) a = (a, Rabs (en - a))) as -> by (unfold closest_step; cbn [snd]; by destruct (Rlt_dec _ _)).
    destruct (IH a) as (H1 & H2 & H3 & H4). cbv zeta in *. split; [right; destruct H1 as [->|]; [by left|by right]|]. split; [done|]. split; [lra|].
    intros x [->|Hx]%elem_of_cons; [done|]. by apply H4.
  - assert (closest_step en (e, Rabs (en - e)) a = (e, Rabs (en - e))) as -> by (unfold closest_step; cbn [snd]; by destruct (Rlt_dec _ _)).
    destruct (IH e) as (H1 & H2 & H3 & H4). cbv zeta in *. split; [destruct H1 as [->|]; [by left|by right; right]|]. split; [done|]. split; [done|].
    intros x [->|Hx]%elem_of_cons; [lra|]. by apply H4.
Qed.

(** If the uninitialised memory names an energy of the file (the one of the last entry, say) or another type, then index [i] selects entry [i] of the energy of the file that is closest to the one wanted. *)
Theorem C68_create jh je es st pos en zen az had : Forall good_entry es -> construct jh je (mjoin (write_entry <$> es)) = Some st ->
  (exists e, e ∈ es /\ Z.of_N (e_hadronic e) = had) -> (jh = had -> exists e, e ∈ es /\ Z.of_N (e_hadronic e) = jh /\ double_value (e_energy e) = je) ->
  exists x, (exists e, e ∈ es /\ Z.of_N (e_hadronic e) = had /\ double_value (e_energy e) = x) /\
    (forall e, e ∈ es -> Z.of_N (e_hadronic e) = had -> Rabs (en - x) <= Rabs (en - double_value (e_energy e))) /\
    forall i e, entries_of had x es !! i = Some e -> x <> 0 -> create_shower st pos en zen az had (Z.of_nat i) = Some (Shower pos zen az (profile_of e) (en / x)).
Proof.
  intros Hes Hrun (e0 & He0 & Hh0) Hjunk. destruct (C68_construct jh je es Hes) as (st' & E & Hst). rewrite Hrun in E. injection E as <-. destruct (Hst had) as (Hp & _ & Hen).
  assert (forall x, x ∈ c_energies st had <-> exists e, e ∈ es /\ Z.of_N (e_hadronic e) = had /\ double_value (e_energy e) = x) as Hen'.
  { intros x. rewrite Hen. split; [|by left]. intros [?|[-> ->]]; [done|]. by apply Hjunk. }
  unfold create_shower. destruct (c_energies st had) as [|x0 r] eqn:Er. { exfalso. eapply not_elem_of_nil. apply Hen'. by exists e0. }
  change ((x0 :: r) !! 0%nat) with (Some x0). cbn [mbind option_bind]. change (drop 1 (x0 :: r)) with r. pose proof (closest_spec en r x0) as Hc. cbv zeta in Hc. set (x := (foldl (closest_step en) (x0, Rabs (en - x0)) r).1) in *. destruct Hc as (H1 & _ & H3 & H4).
  exists x. split; [apply Hen'; destruct H1 as [->|]; [by left|by right]|]. split.
  - intros e He Hh. assert (double_value (e_energy e) ∈ x0 :: r) as Hin by (apply Hen'; by exists e). apply elem_of_cons in Hin as [->|Hin]; [done|]. by apply H4.
  - intros i e Hi Hx. rewrite (proj2 (Z.ltb_ge _ _)) by lia. rewrite Nat2Z.id, Hp, lookup_app_l by (rewrite fmap_length; by eapply lookup_lt_Some). rewrite list_lookup_fmap, Hi. cbn [fmap option_fmap option_map mbind option_bind].
    destruct (Req_EM_T x 0); done.
Qed.

(** The default for the index, -1, which is to select a random shower, is undefined behaviour. *)
Theorem C68_random_refuted st pos en zen az had i : (i < 0)%Z -> create_shower st pos en zen az had i = None.
Proof. intros Hi. unfold create_shower. destruct (c_energies st had !! 0%nat); [|done]. cbn [mbind option_bind]. by rewrite (proj2 (Z.ltb_lt _ _) Hi). Qed.

(** ** Examples *)
(** 1.0, 2.0, 0.0 *)
Definition ex_entry0 : entry := Entry 0 4607182418800017408 [0; 4607182418800017408]%N [4607182418800017408; 4611686018427387904]%N.
Definition ex_entry1 : entry := Entry 0 4611686018427387904 [4607182418800017408]%N [0]%N.
Definition ex_entries : list entry := [ex_entry0; ex_entry1].
Lemma ex_entries_good : Forall good_entry ex_entries.
Proof.
  assert (finite_double 0 /\ finite_double 4607182418800017408 /\ finite_double 4611686018427387904) as (F0 & F1 & F2) by (repeat split; vm_compute; reflexivity).
  repeat constructor; cbn; try done; try lia; assumption.
Qed.
Lemma ex_one : double_value 4607182418800017408 = 1 /\ double_value 4611686018427387904 = 2.
Proof. unfold double_value. split; (match goal with |- B2R _ _ ?x = _ => let y := eval vm_compute in x in replace x with y by (vm_compute; reflexivity) end); unfold B2R, Defs.F2R; cbn [Zaux.cond_Zopp Defs.Fnum Defs.Fexp Zaux.radix_val Raux.bpow Zaux.radix2]; repeat change (Z.pow_pos 2 52) with 4503599627370496%Z; repeat change (Z.pow_pos 2 51) with 2251799813685248%Z; lra. Qed.
Example C68_create_nonvacuous : exists st h, construct 0 2 (mjoin (write_entry <$> ex_entries)) = Some st /\ create_shower st (0, 0, 0) 10 0 0 0 0 = Some h /\ h_scaling h = 5 /\ p_grammage (h_profile h) = [kilogram].
Proof.
  destruct (C68_construct 0 2 ex_entries ex_entries_good) as (st & E & _). exists st. destruct ex_one as [E1 E2].
  destruct (C68_create 0 2 ex_entries st (0, 0, 0) 10 0 0 0 ex_entries_good E) as (x & (e & He & _ & Hx) & Hmin & Hsel).
  { exists ex_entry0. split; [by left|done]. } { intros _. exists ex_entry1. split; [by right; left|]. split; [done|]. exact E2. }
  assert (x = 2) as ->.
  { unfold ex_entries in He. rewrite !elem_of_cons in He. specialize (Hmin ex_entry1 ltac:(by right; left) eq_refl). cbn in Hmin. rewrite E2 in Hmin.
    destruct He as [->|[->|[]%not_elem_of_nil]]; cbn in Hx; [|lra]. rewrite E1 in Hx. subst x. exfalso. rewrite !Rabs_pos_eq in Hmin by lra. lra. }
  assert (entries_of 0 2 ex_entries = [ex_entry1]) as Hent. { unfold entries_of, ex_entries, filed. cbn. rewrite E1, E2. destruct (Req_EM_T 1 2); [lra|]. destruct (Req_EM_T 2 2); [done|lra]. }
  specialize (Hsel 0%nat ex_entry1). rewrite Hent in Hsel. eexists. split; [done|]. split; [apply Hsel; [done|lra]|]. split; [cbn; lra|]. cbn. rewrite E1. f_equal. ring.
Qed.

(** One more shower can be created than the file has; it has no profile and so no tracks. *)
Theorem C68_extra_refuted : exists es st h, construct 0 2 (mjoin (write_entry <$> es)) = Some st /\ Forall good_entry es /\ length (entries_of 0 2 es) = 1%nat /\
  create_shower st (0, 0, 0) 2 0 0 0 1 = Some h /\ forall dt out, fill_tracks ice_density h dt out = None.
Proof.
  exists ex_entries. destruct (C68_construct 0 2 ex_entries ex_entries_good) as (st & E & Hst). exists st. destruct (Hst 0%Z) as (Hp & _ & Hen). destruct ex_one as [E1 E2].
  assert (entries_of 0 2 ex_entries = [ex_entry1]) as Hent. { unfold entries_of, ex_entries, filed. cbn. rewrite E1, E2. destruct (Req_EM_T 1 2); [lra|]. destruct (Req_EM_T 2 2); [done|lra]. }
  unfold create_shower. destruct (c_energies st 0) as [|x0 r] eqn:Er. { exfalso. eapply not_elem_of_nil. apply Hen. right. done. }
  assert (2 ∈ x0 :: r) as H2 by (apply Hen; by right). change ((x0 :: r) !! 0%nat) with (Some x0). cbn [mbind option_bind]. change (drop 1 (x0 :: r)) with r. pose proof (closest_spec 2 r x0) as Hc. cbv zeta in Hc. set (x := (foldl (closest_step 2) (x0, Rabs (2 - x0)) r).1) in *. destruct Hc as (H1 & _ & H3 & H4).
  assert (x = 2) as ->. { assert (Rabs (2 - x) <= Rabs (2 - 2)) as Hle. { assert (forall y, y ∈ x0 :: r -> Rabs (2 - x) <= Rabs (2 - y)) as Q; [|by apply Q]. intros y [->|Hin]%elem_of_cons; [done|by apply H4]. } rewrite Rminus_eq_0, Rabs_R0 in Hle. pose proof (Rabs_pos (2 - x)) as Hpos.
    destruct (Req_dec (2 - x) 0) as [|Hne]; [lra|]. apply Rabs_pos_lt in Hne. lra. }
  exists (Shower (0, 0, 0) 0 0 (Profile [] []) (2 / 2)). split; [done|]. split; [exact ex_entries_good|]. rewrite Hent. split; [done|]. split.
  - cbn [Z.ltb Z.compare]. rewrite Hp, Hent. rewrite bool_decide_true by done. cbn [andb]. destruct (Req_EM_T 2 2); [|lra]. cbn [app lookup fmap list_fmap]. change (Z.to_nat 1) with 1%nat. cbn [lookup list_lookup mbind option_bind]. destruct (Req_EM_T 2 0); [lra|done].
  - intros dt out. apply C67_undefined. by left.
Qed.
