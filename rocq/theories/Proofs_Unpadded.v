(** Proofs_Unpadded.v -- NewTableFromString(StringUnpadded()). *)
From Coq Require Import ZArith NArith List String Ascii Bool SpecFloat Lia.
From Verif Require Import Base Model_Names Model_Table Model_Heap Model_TableSet Spec Spec_Text Model_Lex Model_Float Model_Time Model_Parser Model_Print
  Proofs_Lib Proofs_Table Proofs_Lex Proofs_Num Proofs_Float Proofs_Parser Proofs_FloatText Proofs_TimeText Proofs_Lines Proofs_Block Proofs_CellText.
Import ListNotations.
Local Open Scope string_scope.
Local Open Scope list_scope.

Lemma ascii_words c : (N_of_ascii c < 128)%N -> name_byte c = true -> is_word c = true.
Proof.
  revert c. apply (all_ascii (fun c => (N_of_ascii c < 128)%N -> name_byte c = true -> is_word c = true)). intros k Hk.
  assert (Q : forallb (fun n => let d := ascii_of_nat n in negb (N.ltb (N_of_ascii d) 128 && name_byte d) || is_word d) (seq 0 256) = true) by (vm_compute; reflexivity).
  rewrite forallb_forall in Q. specialize (Q k ltac:(apply in_seq; lia)). cbv zeta in Q.
  intros L H. apply N.ltb_lt in L. rewrite L, H in Q. exact Q.
Qed.
Lemma ascii_name_valid n : valid_name n -> all_ascii_chars n -> ascii_name n.
Proof.
  intros [(c & r & E & S & R) _] A. unfold all_ascii_chars in A. rewrite E in A.
  assert (n = String c (string_of_list_ascii r)) as -> by (rewrite <- (string_of_list_ascii_of_string n), E; reflexivity).
  assert (X : forall c, (N_of_ascii c < 128)%N -> name_char c -> is_word c = true).
  { intros d L H. apply (ascii_words d L). unfold name_byte, underscore.
    destruct H as [[H| ->]|H]; [apply isLetter_spec in H as ->|rewrite Ascii.eqb_refl, orb_true_r|apply isNumber_spec in H as ->]; rewrite ?orb_true_r; reflexivity. }
  assert (Y : is_alpha_ c = true).
  { apply Forall_inv in A. pose proof (X c A (or_introl S)) as W. unfold is_word in W. apply orb_true_iff in W as [W|W]; [exact W|].
    exfalso. unfold is_dec in W. apply between_iff in W. unfold code in W. destruct S as [H| ->]; [|cbn in W; lia].
    unfold latin1_letter, Spec.between in H. repeat (destruct H as [H|H]); try (rewrite H in W; cbn in W; lia); lia. }
  split; [exact Y|]. apply Forall_inv_tail in A. clear - X A R. induction r as [|d r IH]; [reflexivity|].
  cbn. rewrite (X d (Forall_inv A) (Forall_inv R)). apply IH; [now apply Forall_inv_tail in R|now apply Forall_inv_tail in A].
Qed.

(** ---------- cells ---------- *)

Lemma unicode_valid z : unicode z -> valid_rune z = true.
Proof. unfold unicode, valid_rune. intros H. rewrite orb_true_iff, !andb_true_iff, !Z.leb_le, !Z.ltb_lt. lia. Qed.
Lemma fmt32 : fmt_ok F32. Proof. now left. Qed.
Lemma fmt64 : fmt_ok F64. Proof. now right. Qed.
Lemma plain_no_inf ct f : plain_cell ct (VFloat32 f) \/ plain_cell ct (VFloat64 f) -> no_inf f.
Proof. intros [H|H]; destruct f; cbn in *; auto. Qed.

Lemma unpadded_cell_word ip h ct v : cell_ok ct v -> plain_cell ct v -> unpadded_type ct ->
  unpadded_unknown ct = false /\ exists u, cell_text (Quote ip) (QuoteRune ip) h ct v = Some (Ok u) /\ cell_word ct v u.
Proof.
  intros [T G] P U. split.
  { unfold unpadded_unknown. destruct (str_in ct _) eqn:E; [|reflexivity]. apply str_in_In in E. exfalso. apply U. cbn in *. tauto. }
  assert (B : forall ct k z, int_kind ct = Some k -> in_range k z = true -> exists u, cell_text (Quote ip) (QuoteRune ip) h ct (VInt k z) = Some (Ok u) /\ cell_word ct (VInt k z) u).
  { clear. intros ct k z K R. exists (dec_of z). split; [|now apply int_cell]. unfold cell_text. rewrite K. unfold int_of. destruct k; reflexivity. }
  destruct v as [|b|s|k z|f|f|o|o|t|s]; cbn [has_type go_value] in T, G; try contradiction.
  - subst. eexists. split; [reflexivity|apply bool_cell].
  - subst. eexists. split; [reflexivity|apply string_cell].
  - destruct k; try (subst; now apply B).
    + destruct T as [->| ->]; [now apply B|]. eexists. split; [reflexivity|]. apply rune_cell, unicode_valid, P. reflexivity.
    + destruct T as [->| ->]; [now apply B|]. exfalso. apply U. cbn. tauto.
  - subst. eexists. split; [reflexivity|]. apply (float_cell F32 f fmt32 G). now apply (plain_no_inf "float32"); left.
  - subst. eexists. split; [reflexivity|]. apply (float_cell F64 f fmt64 G). now apply (plain_no_inf "float64"); right.
  - exfalso. apply U. destruct T as [->| ->]; cbn; tauto.
  - destruct o; [|contradiction]. exfalso. apply U. subst. cbn. tauto.
  - exfalso. apply U. subst. cbn. tauto.
Qed.
Lemma unpadded_cells_words ip h cts : forall row, Forall2 cell_ok cts row -> Forall2 plain_cell cts row -> Forall unpadded_type cts ->
  exists us, unpadded_cells ip h cts row = Ok (Some us) /\ cell_words cts row us.
Proof.
  induction cts as [|ct cts IH]; intros row C P U; inversion C as [|? v ? row' C1 C2]; subst.
  - exists []. split; [reflexivity|constructor].
  - inversion P; subst. inversion U; subst. destruct (unpadded_cell_word ip h ct v) as (K & u & E & W); auto.
    destruct (IH row') as (us & E' & W'); auto. exists (u :: us). cbn [unpadded_cells]. rewrite K, E. cbn [rbind]. rewrite E'. split; [reflexivity|now constructor].
Qed.
Lemma cell_words_len cts vs us : cell_words cts vs us -> List.length vs = List.length cts /\ List.length us = List.length cts.
Proof. induction 1 as [|? ? ? ? ? ? _ _ [A B]]; cbn; auto. Qed.

Lemma unpadded_rows_lines ip h cts : cts <> [] -> forall rs, Forall (Forall2 cell_ok cts) rs -> Forall (Forall2 plain_cell cts) rs -> Forall unpadded_type cts ->
  exists ls, unpadded_rows ip h cts rs = Ok (Some (text_of ls)) /\ Forall2 (fun row line => List.length row = List.length cts /\ row_line cts row line) rs ls.
Proof.
  intros N. induction rs as [|row rs IH]; intros C P U.
  - exists []. split; [reflexivity|constructor].
  - destruct (unpadded_cells_words ip h cts row (Forall_inv C) (Forall_inv P) U) as (us & E & W).
    destruct (IH (Forall_inv_tail C) (Forall_inv_tail P) U) as (ls & E' & F). exists (String.concat " " us :: ls).
    cbn [unpadded_rows]. rewrite E. cbn [rbind]. rewrite E'. cbn [rbind]. split; [reflexivity|]. destruct (cell_words_len _ _ _ W) as [L1 L2]. constructor; [|exact F].
    split; [exact L1|]. apply (row_spread cts row us _ W). apply spaced_spread, spaced_concat. intros ->. destruct cts; [congruence|discriminate].
Qed.

(** ---------- the whole text ---------- *)

(** The lines of a table *)
Inductive block (n : string) : list string -> list string -> list (list value) -> list string -> Prop :=
  | bl_empty : block n [] [] [] [("[" ++ n ++ "]")%string]
  | bl_cols cns cts rws L1 L2 lns : spread cns L1 -> spread cts L2 -> cns <> [] ->
      List.length cns = List.length cts -> NoDup cns -> Forall valid_name cns -> Forall (fun ct => In ct all_types) cts ->
      Forall2 (fun row line => List.length row = List.length cts /\ row_line cts row line) rws lns ->
      block n cns cts rws (("[" ++ n ++ "]")%string :: L1 :: L2 :: lns).

Lemma block_no_nl n cns cts rws ls : ascii_name n -> block n cns cts rws ls -> Forall (fun l => has nl l = false) ls.
Proof.
  intros A B. assert (N : has nl ("[" ++ n ++ "]")%string = false) by (apply graphic_word; [discriminate|now apply name_line_graphic]).
  destruct B as [|cns cts rws L1 L2 lns S1 S2 _ _ _ VN VT F]; [now constructor|]. apply Forall_cons; [exact N|apply Forall_cons; [|apply Forall_cons]].
  - eapply spread_no_nl; [exact S1|]. eapply Forall_impl; [|exact VN]. intros w W. apply valid_name_bytes in W as [? ?]. now apply name_word.
  - eapply spread_no_nl; [exact S2|]. eapply Forall_impl; [|exact VT]. intros w W. apply type_graphic in W as [? ?]. now apply graphic_word.
  - clear - F. induction F as [|? ? ? ? [_ [H _]] _ IH]; constructor; auto.
Qed.
(** What a reader makes of the lines of a table and the empty line after them *)
Lemma read_block n cns cts rws ls g : ascii_name n -> valid_name n -> block n cns cts rws ls ->
  ps_expecting g = TABLE_NAME -> find_table (ps_heap g ++ [with_nil false (with_name n NewNilTable)]) n (ts_tables (ps_set g)) = None ->
  exists t g', fresh_table n cns cts rws t /\ (forall rest, parse_rest (ls ++ "" :: rest) g = parse_rest rest g') /\
    ps_expecting g' = TABLE_NAME /\ ps_heap g' = ps_heap g ++ [t] /\
    ps_set g' = mkTS (ts_name (ps_set g)) (ts_file (ps_set g)) (ts_tables (ps_set g) ++ [Some (List.length (ps_heap g))]).
Proof.
  intros A V B X N. destruct B as [|cns cts rws L1 L2 lns S1 S2 NC L D VN VT F].
  - destruct (parse_block_empty n g A V X N) as (t & FT & E). eexists t, _. split; [exact FT|]. split; [exact E|]. repeat split.
  - destruct (parse_block n L1 L2 cns cts rws lns g A V S1 S2 NC L D VN VT F X N) as (t & FT & E). eexists t, _. split; [exact FT|]. split; [exact E|]. repeat split.
Qed.
Lemma read_table n cns cts rws ls h : ascii_name n -> valid_name n -> block n cns cts rws ls ->
  exists t, fresh_table n cns cts rws t /\ NewTableFromString (text_of ls) h = (h ++ [t], Ok (Some (List.length h))).
Proof.
  intros A V B.
  destruct (read_block n cns cts rws ls (mkPS h (NewTableSet "") TABLE_NAME UNDEFINED_SHAPE false [] [] false None) A V B eq_refl eq_refl) as (t & g & FT & E & X & H & S).
  exists t. split; [exact FT|]. unfold NewTableFromString, NewTableSetFromString.
  rewrite <- (app_str_nil_r (text_of _)). rewrite lines_text by (eapply block_no_nl; eauto). change (lines "") with [""].
  specialize (E []). assert (PR : parse_rest (ls ++ [""]) = parse_lines (ls ++ [""])) by (destruct ls; reflexivity).
  rewrite PR in E. rewrite E. cbn [parse_rest]. rewrite H, S. reflexivity.
Qed.

Lemma heading_spread ws : ws <> [] -> heading ws = (String.concat " " ws ++ newline)%string /\ spread ws (String.concat " " ws).
Proof. intros N. destruct ws; [congruence|]. split; [reflexivity|]. apply spaced_spread, spaced_concat. discriminate. Qed.

Lemma unpadded_block ip h t : unpadded_table t ->
  exists ls, StringUnpadded ip h t = Ok (text_of ls) /\ block (tname t) (cnames t) (ctypes t) (rows t) ls.
Proof.
  intros (W & NN & AN & SH & Z & U & P).
  assert (E0 : struct_shape t && (RowCount t <=? 1)%Z = false).
  { destruct SH as [->|H]; [reflexivity|]. unfold RowCount. apply andb_false_iff. right. apply Z.leb_gt. lia. }
  unfold StringUnpadded. rewrite E0, <- (wf_types_len _ W), firstn_all.
  destruct (cnames t) as [|cn0 cns0] eqn:CN.
  - specialize (Z eq_refl). pose proof (wf_types_len _ W) as L. rewrite CN in L. destruct (ctypes t) eqn:CT; [|discriminate].
    rewrite Z. cbn [unpadded_rows rbind heading]. eexists. split; [|constructor]. cbn [text_of]. unfold name_line. now rewrite !app_str_assoc.
  - rewrite <- CN. assert (NC : cnames t <> []) by (rewrite CN; discriminate).
    assert (NT : ctypes t <> []) by (intros H; pose proof (wf_types_len _ W) as L; rewrite H, CN in L; discriminate).
    destruct (unpadded_rows_lines ip h (ctypes t) NT (rows t) (wf_cells _ W) P U) as (ls & E & F). rewrite E. cbn [rbind].
    destruct (heading_spread _ NC) as [H1 S1], (heading_spread _ NT) as [H2 S2]. rewrite H1, H2.
    eexists. split; [|apply (bl_cols _ (cnames t) (ctypes t) (rows t) _ _ ls S1 S2 NC); auto; try apply W; symmetry; apply W].
    cbn [text_of]. unfold name_line. now rewrite !app_str_assoc.
Qed.
Theorem unpadded_roundtrip ip h t h1 : unpadded_table t ->
  exists s t', StringUnpadded ip h t = Ok s /\ NewTableFromString s h1 = (h1 ++ [t'], Ok (Some (List.length h1))) /\
    fresh_table (tname t) (cnames t) (ctypes t) (rows t) t'.
Proof.
  intros U. destruct (unpadded_block ip h t U) as (ls & E & B). destruct U as (W & NN & AN & _).
  destruct (wf_name _ W) as [[_ V]|[X _]]; [|congruence]. destruct (read_table _ _ _ _ _ h1 (ascii_name_valid _ V AN) V B) as (t' & FT & R). eauto.
Qed.
