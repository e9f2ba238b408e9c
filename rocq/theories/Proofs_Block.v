(** Proofs_Block.v -- parsing the lines of one table in table shape. *)
From Coq Require Import ZArith NArith List String Ascii Bool Lia.
From Verif Require Import Base Model_Names Model_Table Model_Ops Model_Heap Model_TableSet Spec Model_Lex Model_Parser Model_Print
  Proofs_Lib Proofs_Table Proofs_Copy Proofs_Lex Proofs_Num Proofs_Parser Proofs_Lines.
Import ListNotations.
Local Open Scope string_scope.
Local Open Scope list_scope.

(** A table that was just read *)
Record fresh_table (n : string) (cns cts : list string) (rs : list (list value)) (t : table) : Prop := {
  ft_name : tname t = n; ft_names : cnames t = cns; ft_types : ctypes t = cts; ft_rows : rows t = rs;
  ft_keys : skeys t = []; ft_shape : struct_shape t = false; ft_notnil : is_nil t = false; ft_parent : parent t = None }.

Lemma on_heap_last {A} (m : M A) h t : on_heap (List.length h) m (h ++ [t]) =
  let '(s, r) := m (mkS t (S (List.length h)) []) in ((h ++ [s_tab s]) ++ new_nils (List.length h) (s_news s), r).
Proof.
  unfold on_heap. rewrite nth_error_app2, Nat.sub_diag by auto. cbn [nth_error]. rewrite app_length. cbn [List.length]. rewrite Nat.add_1_r.
  destruct (m _) as [s r]. do 2 f_equal. clear. induction h as [|x h IH]; [reflexivity|]. cbn. now f_equal.
Qed.
Lemma tab_last h t : tab (h ++ [t]) (List.length h) = t.
Proof. unfold tab. rewrite app_nth2, Nat.sub_diag by auto. reflexivity. Qed.

Lemma appendCols_fresh cns : forall cts s n cns0 cts0, wf_table (s_tab s) -> fresh_table n cns0 cts0 [] (s_tab s) -> s_news s = [] ->
  List.length cns = List.length cts -> NoDup (cns0 ++ cns) -> Forall valid_name cns -> Forall (fun ct => In ct all_types) cts ->
  exists t', mfor (combine cns cts) (fun p => AppendCol (fst p) (snd p)) s = (mkS t' (s_base s) [], Ok tt) /\
    fresh_table n (cns0 ++ cns) (cts0 ++ cts) [] t' /\ wf_table t'.
Proof.
  induction cns as [|cn cns IH]; intros [|ct cts] s n cns0 cts0 W FT N L D V T; try discriminate.
  - exists (s_tab s). cbn. rewrite !app_nil_r. destruct s as [t b l]. cbn in *. now subst l.
  - cbn [combine mfor]. unfold bind. cbn [fst snd]. rewrite AppendCol_eq by exact W. destruct FT as [F1 F2 F3 F4 F5 F6 F7 F8].
    apply NoDup_remove in D as D'. destruct D' as [_ D'].
    assert (C : can_append_col (s_tab s) cn ct = true).
    { unfold can_append_col. rewrite F7, (proj2 (IsValidColName_spec cn) (Forall_inv V)), (proj2 (IsValidColType_spec ct) (Forall_inv T)). cbn [negb andb].
      destruct (mget (cmap (s_tab s)) cn) as [i|] eqn:G; [|reflexivity]. apply (wf_map _ W) in G. exfalso. apply D'. rewrite in_app_iff. left.
      rewrite <- F2. now apply nth_error_In in G. }
    rewrite C. cbn [rbind].
    destruct (IH cts (col_added cn ct s) n (cns0 ++ [cn]) (cts0 ++ [ct])) as (t' & E & FT' & W').
    + now apply col_added_wf.
    + constructor; cbn; rewrite ?F2, ?F3, ?F4; auto.
    + cbn. rewrite F4, N. destruct (is_tab ct); reflexivity.
    + now injection L.
    + now rewrite <- app_assoc.
    + now apply Forall_inv_tail in V.
    + now apply Forall_inv_tail in T.
    + exists t'. rewrite <- !app_assoc in FT'. split; [|split]; auto.
Qed.

(** ---------- table names ---------- *)

Definition ascii_name (n : string) : Prop := match n with String c r => is_alpha_ c = true /\ all_c is_word r = true | EmptyString => False end.

Lemma word_graphic c : is_word c = true -> graphic c = true /\ name_byte c = true.
Proof.
  assert (A : forallb (fun n => let c := ascii_of_nat n in negb (is_word c) || (graphic c && name_byte c)) (seq 0 256) = true) by (vm_compute; reflexivity).
  rewrite forallb_forall in A. pattern c. apply all_ascii. intros n Hn. specialize (A n ltac:(apply in_seq; lia)). cbv zeta in A.
  intros N. rewrite N in A. cbn [negb orb] in A. now rewrite andb_true_iff in A.
Qed.
Lemma ascii_name_words n : ascii_name n -> n <> "" /\ all_c is_word n = true.
Proof.
  destruct n as [|c r]; [intros []|]. intros [C A]. split; [discriminate|]. cbn. rewrite A. unfold is_word. now rewrite C.
Qed.
Lemma scan_bracketed_name n rest : ascii_name n -> scan_bracketed ("[" ++ n ++ "]" ++ rest)%string = Some (n, rest).
Proof.
  intros A. destruct n as [|c r]; [destruct A|]. destruct A as [C A]. cbn [append scan_bracketed]. rewrite C. change (Ascii.eqb "[" "[") with true. cbn [andb].
  cbn match. rewrite span_app; [|exact A|reflexivity]. reflexivity.
Qed.
Lemma name_line_graphic n : ascii_name n -> all_c graphic ("[" ++ n ++ "]")%string = true.
Proof.
  intros A. apply ascii_name_words in A as [_ A]. cbn [append all_c]. rewrite all_c_app. cbn [all_c]. rewrite (all_c_impl _ graphic _ (fun c H => proj1 (word_graphic c H)) A). reflexivity.
Qed.
Lemma getTableName_line n : ascii_name n -> getTableName ("[" ++ n ++ "]") = Ok n.
Proof.
  intros A. unfold getTableName. rewrite Fields_word; [|now apply name_line_graphic|discriminate].
  pose proof (scan_bracketed_name n "" A) as S. rewrite app_str_nil_r in S. rewrite S. cbn [append]. rewrite split_last_app. reflexivity.
Qed.
Lemma getTableSetName_table n : ascii_name n -> getTableSetName ("[" ++ n ++ "]") = Err.
Proof.
  intros A. unfold getTableSetName. rewrite Fields_word; [|now apply name_line_graphic|discriminate].
  destruct n as [|c r]; [destruct A|]. destruct A as [C A]. cbn [append scan_set_name]. change (Ascii.eqb "[" "[") with true. cbn match.
  assert (E : scan_bracketed (String c (r ++ "]")) = None).
  { unfold scan_bracketed. destruct (r ++ "]")%string; [reflexivity|]. assert (Ascii.eqb c "[" = false) as ->; [|reflexivity].
    destruct (Ascii.eqb_spec c "["); [subst; discriminate|reflexivity]. }
  now rewrite E.
Qed.
Lemma TrimSpace_graphic w : w <> "" -> all_c graphic w = true -> TrimSpace w = w.
Proof.
  intros N A. destruct (graphic_word w N A) as (_ & F & L & _).
  pose proof (TrimSpace_core 0 w 0 N) as T. cbn [spaces append] in T. rewrite app_str_nil_r in T. apply T; [|exact L]. intros r. apply F. now destruct r.
Qed.

(** ---------- the lines of a table ---------- *)

(** A line of a row that is read as [row] *)
Definition row_line (cts : list string) (row : list value) (line : string) : Prop :=
  has nl line = false /\ exists c r, TrimSpace line = String c r /\ Ascii.eqb c "#" = false /\
  forall p h, get_values p cts (String c r) h = Ok (h, row).

Lemma parse_lines_more l ls g g' : parse_line l g = Ok (false, g') -> ls <> [] -> parse_lines (l :: ls) g = parse_lines ls g'.
Proof. intros E N. cbn [parse_lines]. rewrite E. cbn [rbind]. destruct ls; [congruence|reflexivity]. Qed.
Definition parse_rest (ls : list string) (g : parse_state) : res parse_state := match ls with [] => Ok g | _ => parse_lines ls g end.
Lemma parse_lines_one l ls g g' : parse_line l g = Ok (false, g') -> parse_lines (l :: ls) g = parse_rest ls g'.
Proof. intros E. cbn [parse_lines]. rewrite E. reflexivity. Qed.
Lemma parse_rest_cons l ls g g' : parse_line l g = Ok (false, g') -> parse_rest (l :: ls) g = parse_rest ls g'.
Proof. apply parse_lines_one. Qed.

Definition block_state (h : heap) (ts : tset) (e : section) (sh : shape) (d : bool) (cns cts : list string) (named : bool) (t : table) : parse_state :=
  mkPS (h ++ [t]) (mkTS (ts_name ts) (ts_file ts) (ts_tables ts ++ [Some (List.length h)])) e sh d cns cts named (Some (List.length h)).

Lemma parse_name_line n g : ascii_name n -> valid_name n -> ps_expecting g = TABLE_NAME -> find_table (ps_heap g ++ [with_nil false (with_name n NewNilTable)]) n (ts_tables (ps_set g)) = None ->
  parse_line ("[" ++ n ++ "]") g = Ok (false, block_state (ps_heap g) (ps_set g) COL_NAMES UNDEFINED_SHAPE (ps_has_data g) (ps_names g) (ps_types g) (ps_named g) (with_nil false (with_name n NewNilTable))).
Proof.
  intros A V E F. unfold parse_line. rewrite TrimSpace_graphic; [|discriminate|now apply name_line_graphic].
  change ("[" ++ n ++ "]")%string with (String "[" (n ++ "]")) at 1. cbn match. change (Ascii.eqb "[" "#") with false. cbn match. rewrite E.
  unfold table_name_line. assert (S : (if ps_named g then Err else getTableSetName ("[" ++ n ++ "]")) = Err) by (destruct (ps_named g); [reflexivity|now apply getTableSetName_table]).
  rewrite S, getTableName_line by exact A. cbn [rbind]. rewrite NewTable_spec. rewrite (proj2 (IsValidTableName_spec n) V). cbn [rbind].
  unfold AppendTable. unfold ref_name. rewrite tab_last. cbn [tname with_nil with_name]. rewrite F. cbn [rbind]. reflexivity.
Qed.

Lemma shape_of_names cns : cns <> [] -> Forall valid_name cns -> getTableShape cns = Ok (TABLE_SHAPE, false).
Proof.
  intros N V. assert (T : forall a b, valid_name b -> IsValidColName a && IsValidColType b = false).
  { intros a b [_ B]. destruct (IsValidColType b) eqn:E; [|now rewrite andb_false_r]. apply IsValidColType_spec in E. contradiction. }
  unfold getTableShape, at_. destruct cns as [|a [|b [|c [|d cns]]]]; [congruence|reflexivity|..]; cbn [List.length nth_error rbind].
  - apply Forall_inv_tail, Forall_inv in V. now rewrite T.
  - apply Forall_inv_tail, Forall_inv_tail, Forall_inv in V. destruct (String.eqb_spec c "="); [|reflexivity]. subst.
    apply IsValidColName_spec in V. discriminate.
  - apply Forall_inv_tail, Forall_inv in V. now rewrite T by exact V.
Qed.

Lemma parse_col_lines L1 L2 cns cts h ts d ns0 ts0 named n : spread cns L1 -> spread cts L2 -> cns <> [] -> valid_name n ->
  List.length cns = List.length cts -> NoDup cns -> Forall valid_name cns -> Forall (fun ct => In ct all_types) cts ->
  exists t, fresh_table n cns cts [] t /\ forall ls, parse_rest (L1 :: L2 :: ls) (block_state h ts COL_NAMES UNDEFINED_SHAPE d ns0 ts0 named (with_nil false (with_name n NewNilTable)))
    = parse_rest ls (block_state h ts COL_ROWS TABLE_SHAPE false cns cts named t).
Proof.
  intros S1 S2 N V L D VN VT.
  assert (A1 : Forall (fun w => word w /\ hard_first w /\ hard_last w /\ has nl w = false) cns).
  { eapply Forall_impl; [|exact VN]. intros w W. apply valid_name_bytes in W as [? ?]. now apply name_word. }
  assert (A2 : Forall (fun w => word w /\ hard_first w /\ hard_last w /\ has nl w = false) cts).
  { eapply Forall_impl; [|exact VT]. intros w W. apply type_graphic in W as [? ?]. now apply graphic_word. }
  assert (X : forall ws, Forall (fun w => word w /\ hard_first w /\ hard_last w /\ has nl w = false) ws -> Forall word ws /\ Forall hard_first ws /\ Forall hard_last ws).
  { intros ws F. repeat split; (eapply Forall_impl; [|exact F]; cbv beta; intros; tauto). }
  destruct (X _ A1) as (W1 & F1 & E1), (X _ A2) as (W2 & F2 & E2).
  apply (TrimSpace_spread _ _) in S1; auto. apply (TrimSpace_spread _ _) in S2; auto.
  pose proof (split_white_spaced _ _ S1 W1) as P1. pose proof (split_white_spaced _ _ S2 W2) as P2.
  assert (FW : wf_table (with_nil false (with_name n NewNilTable)) /\ fresh_table n [] [] [] (with_nil false (with_name n NewNilTable))).
  { assert (NT : NewTable n = Ok (with_nil false (with_name n NewNilTable))) by (rewrite NewTable_spec; now rewrite (proj2 (IsValidTableName_spec n) V)).
    apply NewTable_wf in NT as (W & _). split; [exact W|]. constructor; reflexivity. }
  destruct FW as [W0 FT0].
  destruct (appendCols_fresh cns cts (mkS (with_nil false (with_name n NewNilTable)) (S (List.length h)) []) n [] [] W0 FT0 eq_refl L D VN VT) as (t & AE & FT & _).
  exists t. split; [exact FT|]. intros ls.
  assert (FIRST : forall ws s, spaced ws s -> ws <> [] -> Forall (fun w => exists c r, w = String c r /\ Ascii.eqb c "#" = false) ws -> exists c r, s = String c r /\ Ascii.eqb c "#" = false).
  { intros ws s [w|w ws' k s' _] _ F; apply Forall_inv in F as (c & r & -> & Hc); cbn [append]; eauto. }
  destruct (FIRST cns _ S1 N) as (c1 & r1 & T1 & H1).
  { eapply Forall_impl; [|exact VN]. intros w W. apply valid_name_bytes in W as [Nw Bw]. destruct w as [|c r]; [congruence|]. exists c, r. split; [reflexivity|].
    cbn in Bw. apply andb_true_iff in Bw as [Bc _]. destruct (Ascii.eqb_spec c "#"); [subst; discriminate|reflexivity]. }
  destruct (FIRST cts _ S2) as (c2 & r2 & T2 & H2).
  { destruct cns, cts; try discriminate; congruence. }
  { rewrite Forall_forall in *. intros w I. specialize (VT w I). clear - VT.
    assert (Q : forallb (fun w => match w with String c _ => negb (Ascii.eqb c "#") | _ => false end) all_types = true) by (vm_compute; reflexivity).
    rewrite forallb_forall in Q. specialize (Q w VT). destruct w as [|c r]; [discriminate|]. apply negb_true_iff in Q. eauto. }
  rewrite (parse_rest_cons L1 _ _ (block_state h ts COL_TYPES TABLE_SHAPE false cns ts0 named (with_nil false (with_name n NewNilTable)))).
  2:{ unfold parse_line. rewrite T1, H1. cbn [block_state ps_expecting]. unfold col_names_line. rewrite <- T1, P1. cbn [ps_shape].
      rewrite shape_of_names by auto. cbn [rbind with_shape_data ps_shape]. unfold getColNames.
      assert (FB : forallb IsValidColName cns = true) by (apply forallb_forall; rewrite Forall_forall in VN; intros w I; now apply IsValidColName_spec, VN).
      rewrite FB. reflexivity. }
  rewrite (parse_rest_cons L2 _ _ (block_state h ts COL_ROWS TABLE_SHAPE false cns cts named t)); [reflexivity|].
  unfold parse_line. rewrite T2, H2. cbn [block_state ps_expecting]. unfold col_types_line, getColTypes. rewrite <- T2, P2.
  assert (FB : forallb IsValidColType cts = true) by (apply forallb_forall; rewrite Forall_forall in VT; intros w I; now apply IsValidColType_spec, VT).
  rewrite FB. cbn [rbind block_state with_types ps_names]. rewrite <- L, Nat.eqb_refl. cbn [negb].
  unfold on_current, current, with_types, block_state. cbn [ps_table ps_heap ps_names rbind]. rewrite on_heap_last.
  assert (AC : appendCols cns cts (mkS (with_nil false (with_name n NewNilTable)) (S (List.length h)) []) = (mkS t (S (List.length h)) [], Ok tt)).
  { unfold appendCols, bind, check. rewrite L, Nat.eqb_refl. exact AE. }
  rewrite AC. cbn [s_tab s_news new_nils rbind]. unfold new_nils. cbn [map]. rewrite app_nil_r. reflexivity.
Qed.

Lemma parse_row_line h ts cns cts named n rs t row line : fresh_table n cns cts rs t -> List.length cns = List.length cts -> List.length row = List.length cts -> row_line cts row line ->
  exists t', fresh_table n cns cts (rs ++ [row]) t' /\ forall ls, parse_rest (line :: ls) (block_state h ts COL_ROWS TABLE_SHAPE false cns cts named t)
    = parse_rest ls (block_state h ts COL_ROWS TABLE_SHAPE false cns cts named t').
Proof.
  intros FT L R (_ & c & r & T & H & G). exists (with_rows (rows t ++ [row]) t). split.
  - destruct FT. constructor; cbn; auto. congruence.
  - intros ls. apply parse_rest_cons. unfold parse_line. rewrite T, H. cbn [block_state ps_expecting]. unfold col_rows_line.
    unfold current, block_state. cbn [ps_table rbind ps_names ps_types ps_heap]. unfold getRowSlice. rewrite G. cbn [rbind]. rewrite L, Nat.ltb_irrefl, Nat.sub_diag.
    cbn [repeat rbind]. rewrite app_nil_r. unfold on_current. cbn [with_heap ps_heap]. rewrite on_heap_last. cbn [appendRowSlice modify s_tab s_news rbind].
    unfold new_nils. cbn [map]. rewrite app_nil_r. cbn [with_heap ps_types]. rewrite R, Nat.eqb_refl. reflexivity.
Qed.
Lemma parse_row_lines h ts cns cts named n : List.length cns = List.length cts -> forall rws lns rs t, fresh_table n cns cts rs t ->
  Forall2 (fun row line => List.length row = List.length cts /\ row_line cts row line) rws lns ->
  exists t', fresh_table n cns cts (rs ++ rws) t' /\ forall ls, parse_rest (lns ++ ls) (block_state h ts COL_ROWS TABLE_SHAPE false cns cts named t)
    = parse_rest ls (block_state h ts COL_ROWS TABLE_SHAPE false cns cts named t').
Proof.
  intros L rws lns. revert rws. induction lns as [|ln lns IH]; intros rws rs t FT F; inversion F as [|row ? rws' ? [R RL] F']; subst.
  - exists t. rewrite app_nil_r. auto.
  - destruct (parse_row_line h ts cns cts named n rs t row ln FT L R RL) as (t1 & FT1 & E1).
    destruct (IH _ _ _ FT1 F') as (t' & FT' & E'). exists t'. rewrite <- app_assoc in FT'. split; [exact FT'|].
    intros ls. cbn [app]. now rewrite E1, E'.
Qed.

(** The lines of a table with columns, followed by a blank line *)
Theorem parse_block n L1 L2 cns cts rws lns g : ascii_name n -> valid_name n -> spread cns L1 -> spread cts L2 -> cns <> [] ->
  List.length cns = List.length cts -> NoDup cns -> Forall valid_name cns -> Forall (fun ct => In ct all_types) cts ->
  Forall2 (fun row line => List.length row = List.length cts /\ row_line cts row line) rws lns ->
  ps_expecting g = TABLE_NAME -> find_table (ps_heap g ++ [with_nil false (with_name n NewNilTable)]) n (ts_tables (ps_set g)) = None ->
  exists t, fresh_table n cns cts rws t /\ forall ls,
    parse_rest (("[" ++ n ++ "]")%string :: L1 :: L2 :: lns ++ "" :: ls) g =
    parse_rest ls (block_state (ps_heap g) (ps_set g) TABLE_NAME TABLE_SHAPE false cns cts (ps_named g) t).
Proof.
  intros A V S1 S2 N L D VN VT F E FN.
  destruct (parse_col_lines L1 L2 cns cts (ps_heap g) (ps_set g) (ps_has_data g) (ps_names g) (ps_types g) (ps_named g) n S1 S2 N V L D VN VT) as (t1 & FT1 & E1).
  destruct (parse_row_lines (ps_heap g) (ps_set g) cns cts (ps_named g) n L rws lns [] t1 FT1 F) as (t & FT & E2). exists t. split; [exact FT|]. intros ls.
  rewrite (parse_rest_cons _ _ _ _ (parse_name_line n g A V E FN)). rewrite E1, E2. apply parse_rest_cons. reflexivity.
Qed.
(** The lines of a table without columns *)
Theorem parse_block_empty n g : ascii_name n -> valid_name n -> 
  ps_expecting g = TABLE_NAME -> find_table (ps_heap g ++ [with_nil false (with_name n NewNilTable)]) n (ts_tables (ps_set g)) = None ->
  exists t, fresh_table n [] [] [] t /\ forall ls,
    parse_rest (("[" ++ n ++ "]")%string :: "" :: ls) g =
    parse_rest ls (block_state (ps_heap g) (ps_set g) TABLE_NAME UNDEFINED_SHAPE (ps_has_data g) (ps_names g) (ps_types g) (ps_named g) t).
Proof.
  intros A V E FN. exists (with_nil false (with_name n NewNilTable)). split; [constructor; reflexivity|]. intros ls.
  rewrite (parse_rest_cons _ _ _ _ (parse_name_line n g A V E FN)). apply parse_rest_cons. reflexivity.
Qed.
