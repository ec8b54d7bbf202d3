(** C77: reading the tables. *)
From Coq Require Import Reals Ascii Sorting.Sorted Lra Lia.
From stdpp Require Import base list list_numbers numbers option.
From Verif Require Import TableModel TableSpec TableProps.
Local Open Scope R_scope.

(** The result does not depend on the order of the rows in the file, if no two rows have the same argument. *)
Theorem C77_row_order zs iors sorter zs' iors' sorter' z : length zs = length iors -> length zs' = length iors' -> (2 <= length zs)%nat -> NoDup zs -> zip zs iors ≡ₚ zip zs' iors' -> sorts zs sorter -> sorts zs' sorter' ->
  permittivity zs iors sorter z = permittivity zs' iors' sorter' z.
Proof.
  intros Hl Hl' H2 Hd Hp Hs Hs'. assert (length zs = length zs') as Hlen. { pose proof (Permutation_length Hp) as H. rewrite !zip_with_length in H. lia. }
  assert (forall p, p ∈ zip zs iors <-> p ∈ zip zs' iors') as Hin by (intros p; by rewrite Hp).
  destruct (C77_permittivity zs iors sorter z Hl H2 Hs) as [A B]. destruct (C77_permittivity zs' iors' sorter' z Hl' ltac:(lia) Hs') as [A' B'].
  assert (in_range (zip zs iors) z <-> in_range (zip zs' iors') z) as Hr. { unfold in_range. split; intros [(p & ? & ?) (q & ? & ?)]; (split; [exists p|exists q]; split; try assumption; by apply Hin). }
  assert (in_range (zip zs iors) z \/ ~ in_range (zip zs iors) z) as [Hz|Hz].
  { assert (forall (Q : R * R -> Prop) (l : list (R * R)), (forall p, Q p \/ ~ Q p) -> (exists p, p ∈ l /\ Q p) \/ ~ (exists p, p ∈ l /\ Q p)) as Hdec. { intros Q l HQ. induction l as [|p l [(q & Hq & H)|IH]]; [right; intros (p & Hp' & _); by apply elem_of_nil in Hp'|left; exists q; split; [by right|done]|]. destruct (HQ p) as [H|H]; [left; exists p; split; [by left|done]|]. right. intros (q & Hq & HQq). apply elem_of_cons in Hq as [->|Hq]; [done|]. apply IH. eauto. }
    unfold in_range. destruct (Hdec (fun p => p.1 <= z) (zip zs iors)) as [H|H]; [intros p; destruct (Rle_dec p.1 z); auto| |right; tauto]. destruct (Hdec (fun p => z < p.1) (zip zs iors)) as [H'|H']; [intros p; destruct (Rlt_dec z p.1); auto|left; auto|right; tauto]. }
  - destruct (A Hz) as (v & -> & Hv). destruct A' as (w & -> & Hw); [by apply Hr|]. assert (v = w) as ->; [|reflexivity]. apply (C77_unique (zip zs iors) z); [rewrite fst_zip by lia; exact Hd|exact Hv|].
    destruct Hw as (a & b & (Ia & Ib & Hab & Hall) & ->). exists a, b. split; [|reflexivity]. split; [by apply Hin|]. split; [by apply Hin|]. split; [exact Hab|]. intros p Hp'. apply Hall. by apply Hin.
  - rewrite B by exact Hz. rewrite B' by (by rewrite <- Hr). reflexivity.
Qed.

(** * The reader *)
Lemma getline_delim d f rest : d ∉ f -> getline d (f ++ d :: rest) = (f, Some rest).
Proof. induction f as [|c f IH]; intros H; simpl; [by rewrite Ascii.eqb_refl|]. destruct (Ascii.eqb_spec c d) as [->|_]; [destruct H; by left|]. rewrite IH; [reflexivity|]. intros Hin. apply H. by right. Qed.
Lemma getline_end d f : d ∉ f -> getline d f = (f, None).
Proof. induction f as [|c f IH]; intros H; simpl; [reflexivity|]. destruct (Ascii.eqb_spec c d) as [->|_]; [destruct H; by left|]. rewrite IH; [reflexivity|]. intros Hin. apply H. by right. Qed.
Lemma fields_row row fuel : row <> [] -> Forall (fun f => ","%char ∉ f) row -> (length (row_text row) < fuel)%nat -> fields fuel (row_text row) = row.
Proof.
  revert fuel. induction row as [|f [|g row] IH]; intros fuel Hn HF Hlen; [done| |]; (destruct fuel as [|fuel]; [lia|]); inversion_clear HF as [|? ? Hf HF'].
  - cbn [row_text fields]. by rewrite getline_end.
  - change (row_text (f :: g :: row)) with (f ++ ","%char :: row_text (g :: row)) in *. cbn [fields]. rewrite getline_delim by exact Hf. f_equal. apply IH; [done|exact HF'|]. rewrite app_length in Hlen. cbn [length] in Hlen. lia.
Qed.
Section reader.
Context (stof : list ascii -> option R).
(** A row that can be read: its fields are numbers, without commas and newlines, and not all of it is empty. *)
Definition good_row (row : list (list ascii)) (xs : list R) : Prop := Forall2 (fun f x => stof f = Some x) row xs /\ Forall (fun f => ","%char ∉ f /\ "010"%char ∉ f) row /\ row_text row <> [].
Lemma numbers_row row xs : Forall2 (fun f x => stof f = Some x) row xs -> numbers stof row = Returns xs.
Proof. induction 1 as [|f x row xs H _ IH]; [reflexivity|]. simpl. by rewrite H, IH. Qed.
Lemma no_newline row xs : good_row row xs -> "010"%char ∉ row_text row.
Proof.
  intros (_ & H & _). induction H as [|f [|g row] [_ Hf] _ IH]; [intros Hin; by apply elem_of_nil in Hin|exact Hf|]. change (row_text (f :: g :: row)) with (f ++ ","%char :: row_text (g :: row)). intros Hin. apply elem_of_app in Hin as [Hin|Hin]; [done|]. apply elem_of_cons in Hin as [Hin|Hin]; [done|]. by apply IH.
Qed.
Lemma parse_good row xs : good_row row xs -> parse_row stof (row_text row) = Returns xs.
Proof.
  intros (H1 & H2 & H3). unfold parse_row. assert (row <> []) as Hn by (intros ->; done). assert (Forall (fun f => ","%char ∉ f) row) as H4. { clear - H2. induction H2 as [|f l [Hf _] _ IH]; constructor; assumption. }
  destruct (row_text row) eqn:E; [done|]. rewrite <- E. rewrite fields_row; [by apply numbers_row|exact Hn|exact H4|lia].
Qed.
Lemma read_rows fuel col rows vals xs final : Forall2 good_row rows vals -> mapM (fun v : list R => v !! col) vals = Some xs -> (length (table_text rows final) < fuel)%nat -> read_column stof fuel col (table_text rows final) = Returns xs.
Proof.
  intros HF. revert fuel xs. induction HF as [|row val rows vals Hrow HF IH]; intros fuel xs Hm Hlen; (destruct fuel as [|fuel]; [lia|]).
  - simpl in Hm. injection Hm as <-. reflexivity.
  - cbn [mapM] in Hm. destruct (val !! col) as [x|] eqn:Hx; [|done]. cbn [mbind option_bind] in Hm. destruct (mapM _ vals) as [ys|] eqn:Hys; [|done]. injection Hm as <-. pose proof (no_newline _ _ Hrow) as Hnn. pose proof (parse_good _ _ Hrow) as Hpr. destruct Hrow as (_ & _ & Hne).
    assert (forall file, file <> [] -> read_column stof (S fuel) col file = let '(line, rest) := getline "010"%char file in
      obind (fun row => obind (fun x => obind (fun xs => Returns (x :: xs)) (match rest with None => Returns [] | Some r => read_column stof fuel col r end)) (defined (row !! col))) (parse_row stof line)) as Hread by (intros [|]; done).
    destruct rows as [|row2 rows].
    + inversion HF; subst vals. simpl in Hys. injection Hys as <-. cbn [table_text] in *. destruct final.
      * rewrite Hread by (by destruct (row_text row)). rewrite getline_delim by exact Hnn. rewrite Hpr. cbn [obind]. rewrite Hx. cbn [obind defined]. destruct fuel; [rewrite app_length in Hlen; simpl in Hlen; lia|reflexivity].
      * rewrite app_nil_r. rewrite Hread by done. rewrite getline_end by exact Hnn. rewrite Hpr. cbn [obind]. rewrite Hx. reflexivity.
    + change (table_text (row :: row2 :: rows) final) with (row_text row ++ "010"%char :: table_text (row2 :: rows) final) in *. rewrite Hread by (by destruct (row_text row)). rewrite getline_delim by exact Hnn. rewrite Hpr. cbn [obind]. rewrite Hx. cbn [obind defined]. rewrite (IH fuel ys); [reflexivity|reflexivity|]. rewrite app_length in Hlen. cbn [length] in Hlen. lia.
Qed.
(** A column of a table is read completely, in order, whether or not the last line ends with a newline. *)
Theorem C77_read col rows vals xs final : Forall2 good_row rows vals -> mapM (fun v : list R => v !! col) vals = Some xs -> read_table_column stof col (table_text rows final) = Returns xs.
Proof. intros HF Hm. apply (read_rows _ _ rows vals); [exact HF|exact Hm|lia]. Qed.
(** A blank line, for example at the end of the file, is read as a row without fields. *)
Theorem C77_blank_line_refuted col rows vals xs rest : Forall2 good_row rows vals -> mapM (fun v : list R => v !! col) vals = Some xs -> read_table_column stof col (table_text rows true ++ "010"%char :: rest) = Undefined.
Proof.
  unfold read_table_column. intros HF Hm. assert (length (table_text rows true ++ "010"%char :: rest) < S (length (table_text rows true ++ "010"%char :: rest)))%nat as Hlen by lia. revert Hlen. generalize (S (length (table_text rows true ++ "010"%char :: rest))). intros fuel. revert fuel xs Hm.
  induction HF as [|row val rows vals Hrow HF IH]; intros fuel xs Hm Hlen; (destruct fuel as [|fuel]; [lia|]).
  - reflexivity.
  - cbn [mapM] in Hm. destruct (val !! col) as [x|] eqn:Hx; [|done]. cbn [mbind option_bind] in Hm. destruct (mapM _ vals) as [ys|] eqn:Hys; [|done]. pose proof (no_newline _ _ Hrow) as Hnn. pose proof (parse_good _ _ Hrow) as Hpr. destruct Hrow as (_ & _ & Hne).
    assert (forall file, file <> [] -> read_column stof (S fuel) col file = let '(line, rest) := getline "010"%char file in
      obind (fun row => obind (fun x => obind (fun xs => Returns (x :: xs)) (match rest with None => Returns [] | Some r => read_column stof fuel col r end)) (defined (row !! col))) (parse_row stof line)) as Hread by (intros [|]; done).
    assert (table_text (row :: rows) true ++ "010"%char :: rest = row_text row ++ "010"%char :: (table_text rows true ++ "010"%char :: rest)) as E. { destruct rows as [|row2 rows]; [cbn [table_text]; by rewrite <- app_assoc|]. change (table_text (row :: row2 :: rows) true) with (row_text row ++ "010"%char :: table_text (row2 :: rows) true). by rewrite <- app_assoc. }
    rewrite E in *. rewrite Hread by (by destruct (row_text row)). rewrite getline_delim by exact Hnn. rewrite Hpr. cbn [obind]. rewrite Hx. cbn [obind defined]. rewrite (IH fuel ys); [reflexivity|reflexivity|]. rewrite app_length in Hlen. cbn [length] in Hlen. lia.
Qed.
(** A line with something that is not a number, for example a header, is not skipped. *)
Theorem C77_header_refuted col f line rest : ","%char ∉ f -> "010"%char ∉ line -> f <> [] -> stof f = None -> (exists l, line = f ++ ","%char :: l) -> read_table_column stof col (line ++ "010"%char :: rest) = Throws.
Proof.
  intros Hf Hl Hne Hs [l ->]. unfold read_table_column. cbn [read_column]. destruct ((f ++ ","%char :: l) ++ "010"%char :: rest) eqn:E; [by destruct f|]. rewrite <- E. rewrite getline_delim by exact Hl. assert (parse_row stof (f ++ ","%char :: l) = Throws) as ->; [|reflexivity].
  unfold parse_row. destruct (f ++ ","%char :: l) eqn:E'; [by destruct f|]. rewrite <- E'. cbn [fields length]. rewrite getline_delim by exact Hf. cbn [numbers]. by rewrite Hs.
Qed.
End reader.

(** The theorems are not vacuous: a table with the rows (2, 4), (1, 3), (4, 8), in this order; the digits are read as numbers. *)
Definition digit (s : list ascii) : option R := match s with ["1"] => Some 1 | ["2"] => Some 2 | ["3"] => Some 3 | ["4"] => Some 4 | ["8"] => Some 8 | _ => None end%char.
Definition ex_text : list ascii := ["2"; ","; "4"; "010"; "1"; ","; "3"; "010"; "4"; ","; "8"; "010"]%char.
Example C77_nonvacuous : read_table_column digit 0 ex_text = Returns [2; 1; 4] /\ read_table_column digit 1 ex_text = Returns [4; 3; 8] /\ sorts [2; 1; 4] [1; 0; 2]%nat /\ in_range (zip [2; 1; 4] [4; 3; 8]) 3 /\
  permittivity [2; 1; 4] [4; 3; 8] [1; 0; 2]%nat 3 = Returns 36 /\ permittivity [2; 1; 4] [4; 3; 8] [1; 0; 2]%nat 4 = Throws.
Proof.
  split; [reflexivity|]. split; [reflexivity|]. assert (sorts [2; 1; 4] [1; 0; 2]%nat) as Hs. { split; [constructor|]. repeat constructor; simpl; lra. } split; [exact Hs|]. split; [split; [exists (2, 4)|exists (4, 8)]; simpl; (split; [(simpl; repeat constructor)|lra])|].
  split; [|apply (C77_last_row_refuted [2; 1; 4] [4; 3; 8] [1; 0; 2]%nat (4, 8)); [reflexivity|simpl; lia|exact Hs|(simpl; repeat constructor)|]].
  - unfold permittivity, reorder. cbn [mapM mret option_ret mbind option_bind lookup list_lookup defined obind]. unfold lin_interp. cbn [length Nat.eqb Nat.leb andb]. rewrite !find_bracket_cons. destruct (Rle_dec 1 3); [|lra]. destruct (Rlt_dec 3 2); [lra|]. destruct (Rle_dec 2 3); [|lra]. destruct (Rlt_dec 3 4); [|lra]. cbn [fmap option_fmap option_map lookup list_lookup].
    destruct (Rle_dec 2 3); [|lra]. destruct (Rle_dec (3 - 2) (4 - 2)); [|lra]. cbn [obind]. f_equal. lra.
  - intros q Hq. simpl in Hq. repeat (apply elem_of_cons in Hq as [->|Hq]; [simpl; lra|]). by apply elem_of_nil in Hq.
Qed.
