(** Property theorem C50. *)
From stdpp Require Import base list list_numbers numbers option strings.
From Coq Require Import NArith Ascii Lia.
From Verif Require Import IndexSpec NDArrayModel NDArrayProofs NDArrayProps CodecModel CodecProps NumpyModel.

(** * Specification: a reader of version 1.0 files holding big-endian 4-byte floats in C order, after
    https://numpy.org/doc/stable/reference/generated/numpy.lib.format.html *)
Fixpoint expect (p s : list N) : option (list N) :=
  match p, s with
  | [], _ => Some s
  | b :: p', c :: s' => if (b =? c)%N then expect p' s' else None
  | _, _ => None
  end.
Definition is_digit (b : N) : bool := (48 <=? b)%N && (b <=? 57)%N.
(** A decimal number of at least one digit. *)
Fixpoint read_digits (acc : N) (s : list N) : N * list N :=
  match s with
  | b :: s' => if is_digit b then read_digits (10 * acc + (b - 48)) s' else (acc, s)
  | [] => (acc, s)
  end.
Definition read_number (s : list N) : option (N * list N) :=
  match s with b :: _ => if is_digit b then Some (read_digits 0 s) else None | [] => None end.
(** A tuple of numbers separated by comma and blank, up to the closing parenthesis. *)
Fixpoint read_tuple (fuel : nat) (s : list N) : option (list N * list N) :=
  match fuel with
  | O => None
  | S f =>
      '(n, s1) ← read_number s;
      match expect [41%N] s1 with
      | Some s2 => Some ([n], s2)
      | None => s2 ← expect [44%N; 32%N] s1; '(l, s3) ← read_tuple f s2; Some (n :: l, s3)
      end
  end.
(** What may follow the dictionary: blanks and a final newline. *)
Fixpoint is_padding (s : list N) : bool :=
  match s with [10%N] => true | b :: s' => (b =? 32)%N && is_padding s' | [] => false end.
Definition be32 (w : list N) : N := foldl (fun acc b => 256 * acc + b)%N 0%N w.
Fixpoint be_words (n : nat) (s : list N) : list N :=
  match n with O => [] | S n' => be32 (take 4 s) :: be_words n' (drop 4 s) end.
(** Shape and values. *)
Definition read_npy (f : list N) : option (list N * list N) :=
  s1 ← expect [147; 78; 85; 77; 80; 89; 1; 0]%N f;
  match s1 with
  | lo :: hi :: s2 =>
      let hlen := N.to_nat (lo + 256 * hi) in
      if (hlen <=? length s2)%nat && ((10 + hlen) mod 64 =? 0)%nat then
        h1 ← expect (ascii_bytes "{'descr': '>f4', 'fortran_order': False, 'shape': (") (take hlen s2);
        '(sh, h2) ← read_tuple (length h1) h1;
        h3 ← expect (ascii_bytes ", }") h2;
        let data := drop hlen s2 in
        if is_padding h3 && (length data mod 4 =? 0)%nat then Some (sh, be_words (length data / 4) data) else None
      else None
  | _ => None
  end.
(** Position of an element in row-major (C) order. *)
Fixpoint row_major (sh x : list nat) : nat :=
  match sh, x with s :: sh', x0 :: x' => x0 * volume sh' + row_major sh' x' | _, _ => 0 end%nat.

(** * Proofs *)
Lemma expect_app p s : expect p (p ++ s) = Some s.
Proof. induction p as [|b p IH]; [done|]. simpl. by rewrite N.eqb_refl. Qed.
Lemma dec_digits_spec fuel n acc : (n < 10 ^ N.of_nat fuel)%N -> (0 < fuel)%nat ->
  exists ds, dec_digits fuel n acc = ds ++ acc /\ ds <> [] /\ Forall (fun b => is_digit b = true) ds /\
    (length ds <= fuel)%nat /\
    forall a rest, read_digits a (ds ++ rest) = read_digits (10 ^ N.of_nat (length ds) * a + n) rest.
Proof.
  revert n acc. induction fuel as [|f IH]; intros n acc Hn Hf; [lia|]. cbn [dec_digits]. destruct (N.ltb_spec n 10).
  - exists [(48 + n)%N]. assert (is_digit (48 + n) = true) as Hd by (unfold is_digit; apply andb_true_iff; split; apply N.leb_le; lia).
    split; [done|]. split; [done|]. split; [apply Forall_singleton; exact Hd|]. split; [simpl; lia|]. intros a rest. cbn [app read_digits length]. rewrite Hd. f_equal. simpl N.of_nat. lia.
  - assert (10 ^ N.of_nat (S f) = 10 * 10 ^ N.of_nat f)%N as Hp by (rewrite Nat2N.inj_succ, N.pow_succ_r'; done).
    assert (n / 10 < 10 ^ N.of_nat f)%N as Hd by (apply N.div_lt_upper_bound; lia).
    assert (0 < f)%nat as Hf0 by (destruct f; [simpl in Hd; assert (1 <= n / 10)%N by (apply N.div_le_lower_bound; lia); lia|lia]).
    assert (is_digit (48 + n mod 10) = true) as Hdig.
    { pose proof (N.mod_lt n 10 ltac:(done)) as Hk. revert Hk. generalize (n mod 10)%N. intros k Hk. clear - Hk. unfold is_digit; apply andb_true_iff; split; apply N.leb_le; lia. }
    destruct (IH (n / 10)%N ((48 + n mod 10)%N :: acc) Hd Hf0) as (ds & E & Hne & Hfa & Hl & Hr). exists (ds ++ [(48 + n mod 10)%N]). split_and!.
    + rewrite E, <- app_assoc. done.
    + by destruct ds.
    + apply Forall_app; split; [done|apply Forall_singleton; exact Hdig].
    + rewrite app_length; simpl; lia.
    + intros a rest. rewrite <- app_assoc, Hr. cbn [app read_digits]. rewrite Hdig. f_equal.
      rewrite app_length. simpl length. rewrite Nat2N.inj_add, N.pow_add_r. pose proof (N.div_mod n 10 ltac:(done)) as Hdm. change (N.of_nat 1) with 1%N. rewrite N.pow_1_r. revert Hdm. generalize (n mod 10)%N (n / 10)%N (10 ^ N.of_nat (length ds))%N. intros k q P Hdm. lia.
Qed.
Lemma to_string_spec n : exists ds, to_string n = ds /\ (length ds <= S (N.to_nat (N.log2 n)))%nat /\
    Forall (fun b => is_digit b = true) ds /\
    forall rest, (forall b r, rest = b :: r -> is_digit b = false) -> read_number (ds ++ rest) = Some (n, rest).
Proof.
  unfold to_string. destruct (dec_digits_spec (S (N.to_nat (N.log2 n))) n []) as (ds & E & Hne & Hf & Hl & Hr).
  - destruct (N.eq_dec n 0) as [->|Hn]; [done|]. destruct (N.log2_spec n) as [_ H]; [lia|].
    rewrite Nat2N.inj_succ, N2Nat.id. eapply N.lt_le_trans; [exact H|]. apply N.pow_le_mono_l. lia.
  - lia.
  - rewrite app_nil_r in E. exists ds. split_and!; try done. intros rest Hrest. unfold read_number.
    destruct ds as [|d ds]; [done|]. apply list.Forall_cons in Hf as [Hd _]. cbn [app]. rewrite Hd. f_equal.
    change (d :: ds ++ rest) with ((d :: ds) ++ rest). rewrite Hr. rewrite N.mul_0_r, N.add_0_l. destruct rest as [|b r]; [done|].
    cbn [read_digits]. by rewrite (Hrest b r eq_refl).
Qed.
Lemma read_tuple_spec sh last rest fuel : (length sh < fuel)%nat ->
  read_tuple fuel (mjoin ((fun n => to_string (N.of_nat n) ++ ascii_bytes ", ") <$> sh) ++ to_string (N.of_nat last) ++ ascii_bytes ")" ++ rest)
    = Some ((N.of_nat <$> sh) ++ [N.of_nat last], rest).
Proof.
  revert sh. induction fuel as [|f IH]; intros sh Hf; [lia|]. destruct sh as [|n sh].
  - cbn [fmap list_fmap mjoin list_join app read_tuple]. destruct (to_string_spec (N.of_nat last)) as (ds & -> & _ & _ & Hr).
    rewrite Hr; [|intros b r [= <- <-]; done]. cbn [mbind option_bind]. done.
  - rewrite list.fmap_cons, mjoin_cons, <- !app_assoc. cbn [read_tuple]. destruct (to_string_spec (N.of_nat n)) as (ds & -> & _ & _ & Hr).
    rewrite Hr; [|intros b r [= <- <-]; done]. cbn [mbind option_bind].
    change (ascii_bytes ", ") with [44%N; 32%N]. cbn [app expect N.eqb Pos.eqb]. cbn [mbind option_bind].
    change [44%N; 32%N] with (ascii_bytes ", "). rewrite IH by (simpl in Hf; lia). done.
Qed.
Lemma is_padding_spec k : is_padding (replicate k 32%N ++ [10%N]) = true.
Proof. induction k as [|k IH]; [done|]. cbn [replicate app]. simpl. rewrite IH. by destruct k. Qed.
Lemma padded_mod h : ((10 + length (npy_padded h)) mod 64 = 0)%nat /\ (length h < length (npy_padded h) <= length h + 64)%nat.
Proof.
  unfold npy_padded. change (length npy_magic) with 6%nat. replace (6 + 1 + 1 + 2 + length h)%nat with (10 + length h)%nat by lia.
  rewrite !app_length, replicate_length. change (length [10%N]) with 1%nat. set (b := (10 + length h)%nat).
  pose proof (Nat.div_mod b 64 ltac:(done)) as H1. pose proof (Nat.mod_upper_bound b 64 ltac:(done)) as H2.
  assert (length h = b - 10 /\ 10 <= b)%nat as [H3 H4] by (unfold b; lia). revert H1 H2 H3 H4.
  generalize (b / 64)%nat (b mod 64)%nat. generalize b. clear b. intros b q r H1 H2 H3 H4.
  assert (((q + 1) * 64 - b) = 64 - r)%nat as -> by lia. split; [|lia].
  replace (10 + (length h + (64 - r - 1 + 1)))%nat with ((q + 1) * 64)%nat by lia. apply Nat.mod_mul. done.
Qed.
Lemma be32_htonl v : (v < 2 ^ 32)%N -> be32 (to_le 4 (htonl v)) = v.
Proof.
  intros Hv. rewrite htonl_le. unfold be32. rewrite <- fold_left_rev_right || idtac.
  pose proof (of_to_le 4 v) as E. rewrite N.mod_small in E by done. rewrite <- E at 2.
  clear. cbn [to_le]. generalize (v mod 256)%N ((v / 256) mod 256)%N ((v / 256 / 256) mod 256)%N ((v / 256 / 256 / 256) mod 256)%N.
  intros a b c d. cbn [rev app foldl of_le]. lia.
Qed.
Lemma be_words_spec l rest : Forall (dom f32) l -> be_words (length l) (enc_all f32 l ++ rest) = l.
Proof.
  induction 1 as [|v l Hv _ IH]; [done|]. unfold enc_all. rewrite list.fmap_cons, mjoin_cons, <- app_assoc. cbn [length be_words].
  assert (length (enc f32 v) = 4%nat) as L by apply to_le_length.
  rewrite take_app_alt, drop_app_alt by done. f_equal; [|exact IH]. by apply be32_htonl.
Qed.
Lemma enc_all_length l : length (enc_all f32 l) = (4 * length l)%nat.
Proof. induction l as [|v l IH]; [done|]. unfold enc_all in *. rewrite list.fmap_cons, mjoin_cons, app_length, IH. simpl length. lia. Qed.

Lemma to_string_length n : (n < 2 ^ 64)%N -> (length (to_string n) <= 64)%nat.
Proof.
  intros H. destruct (to_string_spec n) as (ds & -> & Hl & _). destruct (N.eq_dec n 0) as [->|]; [simpl in Hl; lia|].
  assert (N.log2 n < 64)%N by (apply N.log2_lt_pow2; lia). lia.
Qed.
(** The header has room in its two-byte length for all realistic numbers of axes. *)
Lemma header_length vd sh : Forall (fun n => N.of_nat n < 2 ^ 64)%N sh -> (N.of_nat vd < 2 ^ 64)%N ->
  (length (npy_header vd sh) <= 130 + 66 * length sh)%nat.
Proof.
  intros H Hv. unfold npy_header, shape_string. rewrite !app_length. pose proof (to_string_length _ Hv).
  assert (length (mjoin ((fun n => to_string (N.of_nat n) ++ ascii_bytes ", ") <$> sh)) <= 66 * length sh)%nat.
  { induction H as [|n sh Hn _ IH]; [done|]. rewrite list.fmap_cons, mjoin_cons, !app_length. pose proof (to_string_length _ Hn).
    change (length (ascii_bytes ", ")) with 2%nat. simpl length at 3. lia. }
  repeat match goal with |- context [length (ascii_bytes ?s)] => let k := eval vm_compute in (length (ascii_bytes s)) in change (length (ascii_bytes s)) with k end.
  lia.
Qed.

Theorem C50_numpy_file_well_formed vd (a : ndarr N) :
  api_array vd a -> (length (a_shape a) <= 900)%nat -> Forall (fun n => N.of_nat n < 2 ^ 64)%N (a_shape a) -> (N.of_nat vd < 2 ^ 64)%N ->
  Forall (fun v => v < 2 ^ 32)%N (a_data a) ->
  exists file data, serialize_to_numpy vd a = Some file /\
    read_npy file = Some (N.of_nat <$> a_shape a ++ [vd], data) /\
    length data = (volume (a_shape a) * vd)%nat /\
    forall x v j, aread vd a x = Some v -> (j < vd)%nat -> data !! (row_major (a_shape a) x * vd + j)%nat = v !! j.
Proof.
  intros Ha Hdim Hsh Hvd Hdat. pose proof (api_array_wf _ _ Ha) as Hwf. pose proof Hwf as (Hne & Hst & Hoff & Hlen & Hown).
  unfold serialize_to_numpy. rewrite Hown. eexists _, (a_data a). split; [reflexivity|].
  set (h := npy_header vd (a_shape a)). destruct (padded_mod h) as [Hmod Hpl].
  pose proof (header_length vd (a_shape a) Hsh Hvd) as Hhl. fold h in Hhl.
  assert (length (a_data a) = volume (a_shape a) * vd)%nat as Lv.
  { rewrite Hlen. unfold compute_volume. by rewrite number_elements_volume. }
  split; [|split; [done|]].
  - unfold read_npy. change npy_magic with [147; 78; 85; 77; 80; 89]%N. cbn [app].
    change (147 :: 78 :: 85 :: 77 :: 80 :: 89 :: 1 :: 0 :: ?l)%N with ([147; 78; 85; 77; 80; 89; 1; 0]%N ++ l).
    rewrite expect_app. cbn [mbind option_bind]. unfold short_le. rewrite N.mod_small by lia. cbn [to_le app].
    set (L := N.of_nat (length (npy_padded h))) in *.
    assert (L mod 256 + 256 * ((L / 256) mod 256) = L)%N as ->.
    { rewrite (N.mod_small (L / 256)) by (apply N.div_lt_upper_bound; lia). pose proof (N.div_mod L 256 ltac:(done)). lia. }
    unfold L. rewrite Nat2N.id. rewrite app_length.
    rewrite (proj2 (Nat.leb_le _ _)) by lia. rewrite (proj2 (Nat.eqb_eq _ _) Hmod). cbn [andb].
    rewrite take_app_alt, drop_app_alt by done. rewrite float_blocks_all by lia.
    unfold npy_padded at 1. unfold h at 1, npy_header at 1, shape_string.
    set (pad := replicate _ 32%N). rewrite <- !app_assoc.
    assert (forall r, ascii_bytes "{'descr': '" ++ ascii_bytes ">f4" ++ ascii_bytes "', 'fortran_order': False, 'shape': " ++ ascii_bytes "(" ++ r
      = ascii_bytes "{'descr': '>f4', 'fortran_order': False, 'shape': (" ++ r) as -> by reflexivity.
    rewrite expect_app. cbn [mbind option_bind]. rewrite read_tuple_spec.
    2:{ rewrite app_length. assert (length (a_shape a) <= length (mjoin ((fun n => to_string (N.of_nat n) ++ ascii_bytes ", ") <$> a_shape a)))%nat.
        { clear. generalize (a_shape a). intros sh. induction sh as [|n sh IH]; [done|]. rewrite list.fmap_cons, mjoin_cons, !app_length. change (length (ascii_bytes ", ")) with 2%nat. simpl length at 1. lia. }
        rewrite !app_length. change (length (ascii_bytes ")")) with 1%nat. lia. }
    cbn [mbind option_bind]. rewrite expect_app. cbn [mbind option_bind]. unfold pad. rewrite is_padding_spec.
    rewrite enc_all_length. rewrite Nat.mul_comm, Nat.mod_mul, Nat.div_mul by done. cbn [andb Nat.eqb].
    pose proof (be_words_spec (a_data a) [] Hdat) as Hb. rewrite app_nil_r in Hb. rewrite Hb. rewrite fmap_app. done.
  - intros x v j Hv Hj. assert (in_shape (a_shape a) x) as Hx.
    { unfold aread in Hv. destruct (has_index _ _) eqn:E; [|done]. by apply has_index_true. }
    rewrite aread_eq in Hv by done. apply block_lookup in Hv as [Hvl Hlk]. rewrite Hlk by lia. do 2 f_equal. symmetry.
    rewrite Hst, Hoff, flat_ind_rank.
    + done.
    + apply in_shape_forall2 in Hx. by eapply Forall2_length.
Qed.
Print Assumptions C50_numpy_file_well_formed.

(** Non-vacuity: a 10 x 3 array of 2-vectors; the file has 128 bytes of header and 240 of data. *)
Example C50_nonvacuous : exists a file data, api_array 2 a /\ serialize_to_numpy 2 a = Some file /\ length file = (128 + 240)%nat /\
  read_npy file = Some ([10; 3; 2]%N, data).
Proof.
  exists (anew 2 1065353216%N [10; 3]%nat). eexists _, _. split; [by apply api_new|]. split; [reflexivity|]. split; vm_compute; reflexivity.
Qed.
