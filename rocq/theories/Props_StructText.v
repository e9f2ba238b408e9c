(** Props_StructText.v -- tables in struct shape written as text and read back (C58). *)
From Coq Require Import ZArith NArith List String Ascii Bool SpecFloat Lia.
From Verif Require Import Base Model_Names Model_Table Model_Heap Model_TableSet Spec Spec_Text Model_Lex Model_Float Model_Time Model_Parser Model_Print
  Spec_StructText Proofs_Lib Proofs_Table Proofs_Pres Samples Spec_Heap Proofs_Heap Proofs_TableSet Proofs_Parser Proofs_Lines Proofs_Block Proofs_Unpadded Proofs_Padded Proofs_SetText
  Proofs_StructText Proofs_SetStruct Props_Parser Props_Text.
Import ListNotations.
Local Open Scope string_scope.
Local Open Scope list_scope.

Lemma read_struct_content t t' : read_struct t t' -> same_content read_back t t' /\ struct_shape t' = true.
Proof. intros [[F1 F2 F3 F4 F5 F6 F7 F8] S]. split; [|exact S]. repeat split; assumption. Qed.

(** C58: StringPadded and StringUnpadded write the same text for a struct, and reading it gives a
    new table with the same name, columns, types and cells, again in struct shape.  No other table
    of the heap changes. *)
Theorem C58_struct_text : forall ip h t h1, struct_table t ->
  exists s h2 p t', StringPadded ip h t = Ok s /\ StringUnpadded ip h t = Ok s /\ NewTableFromString s h1 = (h2, Ok (Some p)) /\ nth_error h2 p = Some t' /\
    same_content read_back t t' /\ struct_shape t' = true /\ (forall q, q < List.length h1 -> nth_error h2 q = nth_error h1 q).
Proof.
  intros ip h t h1 T. destruct (struct_roundtrip ip h t h1 T) as (s & t' & E1 & E2 & R & S). destruct (read_struct_content t t' S) as [C SH].
  exists s, (h1 ++ [t']), (List.length h1), t'. split; [exact E1|]. split; [exact E2|]. split; [exact R|]. split; [apply nth_error_last|]. split; [exact C|]. split; [exact SH|].
  intros q L. now apply nth_error_app1.
Qed.

(** What the text looks like: the name, then one line for each column with its name, its type and
    (if there is a row) an equals sign and its value. *)
Theorem C58_lines : forall ip h t, struct_table t ->
  exists ls, StringPadded ip h t = Ok (text_of (("[" ++ tname t ++ "]")%string :: ls)) /\ List.length ls = List.length (cnames t) /\
    forall i cn ct, nth_error (cnames t) i = Some cn -> nth_error (ctypes t) i = Some ct -> exists l, nth_error ls i = Some l /\ has nl l = false /\
      (rows t = [] -> l = (cn ++ " " ++ ct)%string) /\ (rows t <> [] -> exists u, l = (cn ++ " " ++ ct ++ " = " ++ u)%string /\ u <> "").
Proof.
  intros ip h t T. destruct (struct_words_exist h t T) as (us & SW & E). destruct (struct_print ip h t T) as [E1 _]. rewrite E1, E.
  pose proof (rt_nl _ _ _ (struct_reads t us T SW)) as NL. apply Forall_inv_tail in NL.
  destruct T as (W & _). pose proof (wf_types_len _ W) as TL. exists (struct_lines t us). split; [reflexivity|].
  assert (LL : List.length (struct_lines t us) = List.length (cnames t)).
  { unfold struct_lines. destruct SW as [->|(row & -> & CW)]; [rewrite map_length, combine_length; lia|]. destruct (cell_words_len _ _ _ CW) as [_ LU]. apply value_lines_length; lia. }
  split; [exact LL|]. intros i cn ct N1 N2. pose proof (nth_error_some_lt _ _ _ N1) as LI.
  destruct (nth_error (struct_lines t us) i) as [l|] eqn:NI; [|apply nth_error_None in NI; lia]. exists l. split; [reflexivity|].
  split; [rewrite Forall_forall in NL; apply NL; now apply nth_error_In in NI|]. unfold struct_lines in NI. destruct SW as [R|(row & R & CW)]; rewrite R in *.
  - split; [|congruence]. intros _. rewrite nth_error_map, Proofs_Copy.nth_error_combine, N1, N2 in NI. cbn in NI. injection NI as <-. reflexivity.
  - split; [discriminate|]. intros _. destruct (cell_words_len _ _ _ CW) as [_ LU].
    destruct (nth_error us i) as [u|] eqn:NU; [|apply nth_error_None in NU; lia]. rewrite (nth_value_lines _ _ _ i cn ct u N1 N2 NU) in NI. injection NI as <-. exists u. split; [reflexivity|].
    clear -CW NU. revert i NU. induction CW as [|ct v u' cts vs us' W CW IH]; intros [|i] NU; try discriminate; cbn in NU; [|eauto].
    injection NU as ->. destruct (Proofs_CellText.cw_first _ _ _ W) as (c & r & -> & _). discriminate.
Qed.

(** ---------- table sets with tables in both shapes ---------- *)

(** The contents and the shape of [t], but a struct of two rows or more becomes a table. *)
Definition same_shape (t t' : table) : Prop := same_content read_back t t' /\ struct_shape t' = (struct_shape t && Nat.leb (List.length (rows t)) 1)%bool.

Lemma set_pieces (ok : table -> Prop) (print : table -> res string) h (os : list ref) :
  (forall t, ok t -> exists ls P, print t = Ok (text_of ls) /\ reads_table (tname t) P ls /\ forall t', P t' -> same_shape t t') ->
  Forall (fun o => exists p t, o = Some p /\ nth_error h p = Some t /\ ok t) os ->
  exists bs, rmap (ref_text print h) os = Ok (map (fun b => text_of (pc_lines b)) bs) /\ Forall pc_ok bs /\ map pc_name bs = map (ref_name h) os /\
    forall h1 ts, Forall2 pc_table bs ts ->
      Forall2 (fun o o' => exists p t p' t', o = Some p /\ nth_error h p = Some t /\ o' = Some p' /\ nth_error (h1 ++ ts) p' = Some t' /\ same_shape t t')
        os (map Some (seq (List.length h1) (List.length bs))).
Proof.
  intros P. induction 1 as [|o os (p & t & -> & T & K) F (bs & E & FI & N & FT)].
  - exists []. split; [reflexivity|]. split; [constructor|]. split; [reflexivity|]. intros h1 ts X. constructor.
  - destruct (P t K) as (ls & Q & PE & RT & Sm). assert (TE : tab h p = t) by (unfold tab; now apply nth_error_nth).
    exists (mkPc (tname t) Q ls :: bs). split; [|split; [|split]].
    + cbn [rmap ref_text]. rewrite TE, PE. cbn [rbind]. rewrite E. reflexivity.
    + constructor; [exact RT|exact FI].
    + cbn [map pc_name]. rewrite N. f_equal. unfold ref_name. now rewrite TE.
    + intros h1 ts X. inversion X as [|? t' ? ts' F1 F2]; subst ts. cbn [List.length seq map]. constructor.
      * exists p, t, (List.length h1), t'. split; [reflexivity|]. split; [exact T|]. split; [reflexivity|]. split; [rewrite nth_error_app2, Nat.sub_diag by lia; reflexivity|]. now apply Sm.
      * specialize (FT (h1 ++ [t']) ts' F2). rewrite app_length in FT. cbn [List.length] in FT. rewrite Nat.add_comm in FT. cbn [Nat.add] in FT.
        rewrite <- app_assoc in FT. exact FT.
Qed.

Lemma struct_piece ip h t : struct_table t -> exists ls P, StringPadded ip h t = Ok (text_of ls) /\ StringUnpadded ip h t = Ok (text_of ls) /\ reads_table (tname t) P ls /\ forall t', P t' -> same_shape t t'.
Proof.
  intros T. destruct (struct_words_exist h t T) as (us & SW & E). destruct (struct_print ip h t T) as [E1 E2].
  eexists _, (read_struct t). rewrite E1, E2. split; [exact E|]. split; [exact E|]. split; [now apply struct_reads|]. intros t' R. destruct (read_struct_content t t' R) as [C SH].
  split; [exact C|]. destruct T as (_ & _ & _ & SS & L & _). rewrite SH, SS. symmetry. apply Nat.leb_le. exact L.
Qed.
Lemma table_piece type_ok cell t ls : text_table type_ok cell t -> block (tname t) (cnames t) (ctypes t) (map (map read_back) (rows t)) ls ->
  reads_table (tname t) (fresh_table (tname t) (cnames t) (ctypes t) (map (map read_back) (rows t))) ls /\
  forall t', fresh_table (tname t) (cnames t) (ctypes t) (map (map read_back) (rows t)) t' -> same_shape t t'.
Proof.
  intros (W & NN & AN & SH & _) B. destruct (wf_name _ W) as [[_ V]|[X _]]; [|congruence]. split; [apply block_reads; auto; now apply ascii_name_valid|].
  intros t' F. split; [now apply (same_content_fresh _ _ _ _ _ t t' eq_refl eq_refl eq_refl eq_refl F)|]. rewrite (ft_shape _ _ _ _ _ F).
  destruct SH as [->|L]; [reflexivity|]. symmetry. apply andb_false_iff. right. apply Nat.leb_gt. lia.
Qed.
Lemma unpadded_read_back t : unpadded_table t -> map (map read_back) (rows t) = rows t.
Proof.
  intros (W & _ & _ & _ & _ & U & _). pose proof (wf_cells _ W) as C. induction C as [|row rs R C IH]; [reflexivity|]. cbn [map]. f_equal; [|exact IH].
  clear -U R. induction R as [|ct v cts vs [T G] R IH]; [reflexivity|]. cbn [map]. rewrite IH by now apply Forall_inv_tail in U. f_equal.
  destruct v as [|?|?|? ?|?|?|[?|]|?|?|?]; try reflexivity. exfalso. apply (Forall_inv U). cbn in T. destruct T as [->| ->]; cbn; tauto.
Qed.

(** The text of a whole set, padded: the name of the set and all tables, in their shapes, come
    back in order. *)
Theorem C58_TableSet_StringPadded : forall ip h s h1, text_set (fun t => padded_table t \/ struct_table t) h s ->
  ts_name s = "" \/ (valid_name (ts_name s) /\ all_ascii_chars (ts_name s)) ->
  exists text h2 s', TS_StringPadded ip h s = Ok text /\ NewTableSetFromString text h1 = (h2, Ok s') /\ ts_name s' = ts_name s /\
    Forall2 (fun o o' => exists p t p' t', o = Some p /\ nth_error h p = Some t /\ o' = Some p' /\ nth_error h2 p' = Some t' /\ same_shape t t') (ts_tables s) (ts_tables s') /\
    (forall q, q < List.length h1 -> nth_error h2 q = nth_error h1 q).
Proof.
  intros ip h s h1 [F D] N.
  destruct (set_pieces (fun t => padded_table t \/ struct_table t) (StringPadded ip h) h (ts_tables s)) as (bs & E & FI & NM & FT).
  - intros t [K|K].
    + destruct (padded_block ip h t K) as (ls & P & B). destruct (table_piece _ _ t ls K B) as [A C]. eauto 6.
    + destruct (struct_piece ip h t K) as (ls & P & E1 & _ & A & C). eauto 6.
  - exact F.
  - destruct (pieces_roundtrip bs (ts_name s) h1 FI) as (ts & FTS & R).
    + now rewrite NM.
    + destruct N as [N|[V A]]; [now left|right; now apply ascii_name_valid].
    + eexists _, _, _. unfold TS_StringPadded. rewrite E. cbn [rbind]. split; [reflexivity|]. split; [exact R|]. split; [reflexivity|]. split.
      * cbn [ts_tables]. now apply FT.
      * intros q L. now apply nth_error_app1.
Qed.
(** The same of the unpadded text, which does not have the name of the set. *)
Theorem C58_TableSet_StringUnpadded : forall ip h s h1, text_set (fun t => unpadded_table t \/ struct_table t) h s ->
  exists text h2 s', TS_StringUnpadded ip h s = Ok text /\ NewTableSetFromString text h1 = (h2, Ok s') /\ ts_name s' = "" /\
    Forall2 (fun o o' => exists p t p' t', o = Some p /\ nth_error h p = Some t /\ o' = Some p' /\ nth_error h2 p' = Some t' /\ same_shape t t') (ts_tables s) (ts_tables s') /\
    (forall q, q < List.length h1 -> nth_error h2 q = nth_error h1 q).
Proof.
  intros ip h s h1 [F D].
  destruct (set_pieces (fun t => unpadded_table t \/ struct_table t) (StringUnpadded ip h) h (ts_tables s)) as (bs & E & FI & NM & FT).
  - intros t [K|K].
    + destruct (unpadded_block ip h t K) as (ls & P & B). rewrite <- (unpadded_read_back t K) in B. destruct (table_piece _ _ t ls K B) as [A C]. eauto 6.
    + destruct (struct_piece ip h t K) as (ls & P & _ & E1 & A & C). eauto 6.
  - exact F.
  - destruct (pieces_roundtrip bs "" h1 FI) as (ts & FTS & R); [now rewrite NM|now left|].
    eexists _, _, _. unfold TS_StringUnpadded. rewrite E. cbn [rbind]. split; [reflexivity|]. split; [exact R|]. split; [reflexivity|]. split.
    + cbn [ts_tables]. now apply FT.
    + intros q L. now apply nth_error_app1.
Qed.

(** ---------- a concrete case ---------- *)

Definition struct_doc : string := text2
  "[One]~i int64 = 9007199254740993~u uint64 = 18446744073709551615~s string = |a = b, # c|~f float64 = 5.684341886080802e-14~g float32 = NaN~b bool = true~r rune = 'q'~y byte = 255~z []byte = [1 2 255]~t time.Time = 2020-02-29T23:59:01Z~".
Definition one : table := Eval vm_compute in tab (fst (NewTableFromString struct_doc [])) 0.
Example C58_nonvacuous : struct_table one /\ List.length (rows one) = 1 /\ List.length (ctypes one) = 10.
Proof.
  split; [|split; reflexivity]. split; [apply (wf_read struct_doc); vm_compute; reflexivity|]. split; [reflexivity|]. split; [each; vm_compute; reflexivity|]. split; [reflexivity|].
  split; [cbn; lia|]. split; [discriminate|]. split; [each; discriminate|]. each; cbn; auto; try discriminate.
  - exists (map code (list_ascii_of_string "a = b, # c")). split; [|reflexivity]. cbn. repeat (apply Forall_cons || apply Forall_nil); unfold bare, unicode; cbv; intuition discriminate.
  - intros _. unfold bare, unicode. lia.
  - split; [vm_compute; split; discriminate|]. split; [reflexivity|]. split; [vm_compute; split; reflexivity|]. now left.
Qed.
Example C58_set_nonvacuous : text_set (fun t => padded_table t \/ struct_table t) [wide; one] (mkTS "Both" "" [Some 1; Some 0]).
Proof.
  split.
  - each; eexists _, _; (split; [reflexivity|split; [reflexivity|]]); [right; apply C58_nonvacuous|left; apply C24_nonvacuous].
  - repeat constructor; cbn; intuition discriminate.
Qed.

(** ---------- what the text of a struct loses ---------- *)

(** Nothing is escaped, so a backslash is read as the start of an escape... *)
Theorem C58_backslash_refuted : exists t, wf_table t /\ struct_shape t = true /\ rows t = [[VString (String bslash "n")]] /\
  ~ kept (StringUnpadded yes []) t /\ ~ kept (StringPadded yes []) t.
Proof. read_witness (text2 "[T]~s string = |^^n|~"). split; [reflexivity|]. split; [reflexivity|]. split; not_kept. Qed.
(** ...a newline ends the line... *)
Theorem C58_newline_refuted : exists t s, wf_table t /\ struct_shape t = true /\ rows t = [[VString (String nl "")]] /\
  StringPadded yes [] t = Ok s /\ NewTableFromString s [] = ([], Err).
Proof.
  set (w := text2 "[T]~s string = |^n|~").
  let t := eval vm_compute in (tab (fst (NewTableFromString w [])) 0) in let s := eval vm_compute in (StringPadded yes [] t) in
  match s with Ok ?x => exists t, x end. split; [apply (wf_read w); vm_compute; reflexivity|]. repeat split; vm_compute; reflexivity.
Qed.
(** ...and the rune of a single quote cannot be read. *)
Theorem C58_rune_quote_refuted : exists t, wf_table t /\ struct_shape t = true /\ rows t = [[VInt KInt32 39]] /\
  ~ kept (StringUnpadded yes []) t /\ ~ kept (StringPadded yes []) t.
Proof. read_witness (text2 "[T]~r rune = '^''~"). split; [reflexivity|]. split; [reflexivity|]. split; not_kept. Qed.
(** A struct without columns comes back as a table. *)
Theorem C58_no_columns_refuted : exists t s t', wf_table t /\ struct_shape t = true /\ cnames t = [] /\ rows t = [] /\
  StringPadded yes [] t = Ok s /\ NewTableFromString s [] = ([t'], Ok (Some 0)) /\ struct_shape t' = false.
Proof.
  let t := eval vm_compute in (fst (run (SetName "T" ;;; SetStructShape true) 0 NewNilTable)) in let s := eval vm_compute in (StringPadded yes [] t) in
  match s with Ok ?x => let h := eval vm_compute in (fst (NewTableFromString x [])) in match h with [?t'] => exists t, x, t' end end.
  split; [match goal with |- wf_table ?t => change t with (fst (run (SetName "T" ;;; SetStructShape true) 0 NewNilTable)) end; apply wf_run; pr|]. repeat split; vm_compute; reflexivity.
Qed.

(** Axioms used by any theorem of this file. *)
Definition all_Props_StructText :=
  (@C58_struct_text,
   @C58_lines,
   @C58_TableSet_StringPadded,
   @C58_TableSet_StringUnpadded,
   @C58_backslash_refuted,
   @C58_newline_refuted,
   @C58_rune_quote_refuted,
   @C58_no_columns_refuted).
Print Assumptions all_Props_StructText.
