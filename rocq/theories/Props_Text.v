(** Props_Text.v -- tables and table sets written as text and read back (C23, C24). *)
From Coq Require Import ZArith NArith List String Ascii Bool SpecFloat Lia.
From Verif Require Import Base Model_Names Model_Table Model_Heap Model_TableSet Spec Spec_Text Model_Lex Model_Float Model_Time Model_Parser Model_Print
  Proofs_Lib Proofs_Table Proofs_Pres Samples Spec_Heap Proofs_Heap Proofs_TableSet Proofs_Parser Proofs_Block Proofs_Unpadded Proofs_Padded Proofs_SetText Props_Parser.
Import ListNotations.
Local Open Scope string_scope.
Local Open Scope list_scope.

(** ---------- one table ---------- *)

Lemma same_content_fresh f n cns cts rs t t' : n = tname t -> cns = cnames t -> cts = ctypes t -> rs = map (map f) (rows t) -> fresh_table n cns cts rs t' -> same_content f t t'.
Proof. intros -> -> -> -> []. repeat split; assumption. Qed.
Lemma map_map_id {A} (l : list (list A)) : map (map (fun x => x)) l = l.
Proof. induction l as [|r l IH]; [reflexivity|]. cbn [map]. now rewrite map_id, IH. Qed.
Lemma nth_error_last {A} (h : list A) (x : A) : nth_error (h ++ [x]) (List.length h) = Some x.
Proof. rewrite nth_error_app2, Nat.sub_diag by lia. reflexivity. Qed.

(** C23: reading the unpadded text gives the table back, in a new table: no other table of the
    heap changes. *)
Theorem C23_StringUnpadded : forall ip h t h1, unpadded_table t ->
  exists s h2 p t', StringUnpadded ip h t = Ok s /\ NewTableFromString s h1 = (h2, Ok (Some p)) /\ nth_error h2 p = Some t' /\
    same_content (fun v => v) t t' /\ (forall q, q < List.length h1 -> nth_error h2 q = nth_error h1 q).
Proof.
  intros ip h t h1 U. destruct (unpadded_roundtrip ip h t h1 U) as (s & t' & E & R & F).
  exists s, (h1 ++ [t']), (List.length h1), t'. split; [exact E|]. split; [exact R|]. split; [apply nth_error_last|]. split.
  - apply (same_content_fresh _ _ _ _ _ t t' eq_refl eq_refl eq_refl (eq_sym (map_map_id (rows t))) F).
  - intros q L. now apply nth_error_app1.
Qed.

(** C24: the same of the padded text, which String() returns too. *)
Theorem C24_StringPadded : forall ip h t h1, padded_table t ->
  exists s h2 p t', StringPadded ip h t = Ok s /\ NewTableFromString s h1 = (h2, Ok (Some p)) /\ nth_error h2 p = Some t' /\
    same_content read_back t t' /\ (forall q, q < List.length h1 -> nth_error h2 q = nth_error h1 q).
Proof.
  intros ip h t h1 U. destruct (padded_roundtrip ip h t h1 U) as (s & t' & E & R & F).
  exists s, (h1 ++ [t']), (List.length h1), t'. split; [exact E|]. split; [exact R|]. split; [apply nth_error_last|]. split.
  - apply (same_content_fresh _ _ _ _ _ t t' eq_refl eq_refl eq_refl eq_refl F).
  - intros q L. now apply nth_error_app1.
Qed.

(** ---------- a table set ---------- *)

(** Every table of the set is one that the text keeps, and no two have the same name. *)
Definition text_set (ok : table -> Prop) (h : heap) (s : tset) : Prop :=
  Forall (fun o => exists p t, o = Some p /\ nth_error h p = Some t /\ ok t) (ts_tables s) /\ NoDup (map (ref_name h) (ts_tables s)).
(** The tables of [s'] in [h'] have the contents of those of [s] in [h], in the same order. *)
Definition same_tables (f : value -> value) (h : heap) (s : tset) (h' : heap) (s' : tset) : Prop :=
  Forall2 (fun o o' => exists p t p' t', o = Some p /\ nth_error h p = Some t /\ o' = Some p' /\ nth_error h' p' = Some t' /\ same_content f t t') (ts_tables s) (ts_tables s').

Lemma set_items (ok : table -> Prop) (f : value -> value) (print : table -> res string) h (os : list ref) :
  (forall t, ok t -> wf_table t /\ is_nil t = false /\ all_ascii_chars (tname t)) ->
  (forall t, ok t -> exists ls, print t = Ok (Proofs_Lines.text_of ls) /\ block (tname t) (cnames t) (ctypes t) (map (map f) (rows t)) ls) ->
  Forall (fun o => exists p t, o = Some p /\ nth_error h p = Some t /\ ok t) os ->
  exists bs, rmap (ref_text print h) os = Ok (map (fun b => Proofs_Lines.text_of (it_lines b)) bs) /\ Forall it_ok bs /\ map it_name bs = map (ref_name h) os /\
    forall h1 ts, Forall2 it_table bs ts ->
      Forall2 (fun o o' => exists p t p' t', o = Some p /\ nth_error h p = Some t /\ o' = Some p' /\ nth_error (h1 ++ ts) p' = Some t' /\ same_content f t t')
        os (map Some (seq (List.length h1) (List.length bs))).
Proof.
  intros A P. induction 1 as [|o os (p & t & -> & T & K) F (bs & E & FI & N & FT)].
  - exists []. split; [reflexivity|]. split; [constructor|]. split; [reflexivity|]. intros h1 ts X. constructor.
  - destruct (A t K) as (W & NN & AN). destruct (wf_name _ W) as [[_ V]|[X _]]; [|congruence].
    destruct (P t K) as (ls & PE & B). assert (TE : tab h p = t) by (unfold tab; now apply nth_error_nth).
    exists (mkIT (tname t) (cnames t) (ctypes t) (map (map f) (rows t)) ls :: bs). split; [|split; [|split]].
    + cbn [rmap ref_text]. rewrite TE, PE. cbn [rbind]. rewrite E. reflexivity.
    + constructor; [|exact FI]. repeat split; [now apply ascii_name_valid|apply V|apply V|exact B].
    + cbn [map it_name]. rewrite N. f_equal. unfold ref_name. now rewrite TE.
    + intros h1 ts X. inversion X as [|? t' ? ts' F1 F2]; subst ts. cbn [List.length seq map]. constructor.
      * exists p, t, (List.length h1), t'. repeat split; try apply F1; auto. rewrite nth_error_app2, Nat.sub_diag by lia. reflexivity.
      * specialize (FT (h1 ++ [t']) ts' F2). rewrite app_length in FT. cbn [List.length] in FT. rewrite Nat.add_comm in FT. cbn [Nat.add] in FT.
        rewrite <- app_assoc in FT. exact FT.
Qed.

(** C24 for table sets: the name of the set (if it is ASCII) and all tables come back, in order. *)
Theorem C24_TableSet_StringPadded : forall ip h s h1, text_set padded_table h s ->
  ts_name s = "" \/ (valid_name (ts_name s) /\ all_ascii_chars (ts_name s)) ->
  exists text h2 s', TS_StringPadded ip h s = Ok text /\ NewTableSetFromString text h1 = (h2, Ok s') /\ ts_name s' = ts_name s /\
    same_tables read_back h s h2 s' /\ (forall q, q < List.length h1 -> nth_error h2 q = nth_error h1 q).
Proof.
  intros ip h s h1 [F D] N.
  destruct (set_items padded_table read_back (StringPadded ip h) h (ts_tables s)) as (bs & E & FI & NM & FT).
  - intros t (W & NN & A & _). auto.
  - intros t K. now apply padded_block.
  - exact F.
  - destruct (set_roundtrip bs (ts_name s) h1 FI) as (ts & FTS & R).
    + now rewrite NM.
    + destruct N as [N|[V A]]; [now left|right; now apply ascii_name_valid].
    + eexists _, _, _. unfold TS_StringPadded. rewrite E. cbn [rbind]. split; [reflexivity|]. split; [exact R|]. split; [reflexivity|]. split.
      * unfold same_tables. cbn [ts_tables]. now apply FT.
      * intros q L. now apply nth_error_app1.
Qed.
(** C23 for table sets: the tables come back; the name of the set is not in the text. *)
Theorem C23_TableSet_StringUnpadded : forall ip h s h1, text_set unpadded_table h s ->
  exists text h2 s', TS_StringUnpadded ip h s = Ok text /\ NewTableSetFromString text h1 = (h2, Ok s') /\ ts_name s' = "" /\
    same_tables (fun v => v) h s h2 s' /\ (forall q, q < List.length h1 -> nth_error h2 q = nth_error h1 q).
Proof.
  intros ip h s h1 [F D].
  destruct (set_items unpadded_table (fun v => v) (StringUnpadded ip h) h (ts_tables s)) as (bs & E & FI & NM & FT).
  - intros t (W & NN & A & _). auto.
  - intros t K. destruct (unpadded_block ip h t K) as (ls & P & B). exists ls. split; [exact P|].
    now rewrite map_map_id.
  - exact F.
  - destruct (set_roundtrip bs "" h1 FI) as (ts & FTS & R).
    + now rewrite NM.
    + now left.
    + eexists _, _, _. unfold TS_StringUnpadded. rewrite E. cbn [rbind]. split; [reflexivity|]. split; [exact R|]. split; [reflexivity|]. split.
      * unfold same_tables. cbn [ts_tables]. now apply FT.
      * intros q L. now apply nth_error_app1.
Qed.

(** ---------- a concrete case ---------- *)

(** The text of a table with a column of each kind of cell; ~ stands for a line end, | for a
    double quote and ^ for a backslash. *)
Definition text2 (s : string) : string :=
  string_of_list_ascii (map (fun c => if Ascii.eqb c "~" then nl else if Ascii.eqb c "|" then dquote else if Ascii.eqb c "^" then bslash else c) (list_ascii_of_string s)).
Definition yes : Z -> bool := fun _ => true.
Definition wide_text : string := text2
  "[Wide]~i s f g b r u y z t~int string float64 float32 bool rune uint64 byte []byte time.Time~-7 |a b^n^|x^|| 2.5 -1.0e-3 true 'q' 18 255 [1 2 255] 2020-02-29T23:59:01Z~0 || NaN 0.1 false '^n' 9007199254740992 0 [] 1999-12-31T00:00:00.123456789+10:30~".
Definition wide : table := Eval vm_compute in tab (fst (NewTableFromString wide_text [])) 0.
Lemma wide_read : NewTableFromString wide_text [] = ([wide], Ok (Some 0)).
Proof. vm_compute. reflexivity. Qed.
Lemma wf_wide : wf_table wide.
Proof.
  destruct (C26_NewTableFromString wide_text [] [wide] (Some 0)) as ([W _ _] & _); [apply wf_heap_nil|apply wide_read|]. exact (Forall_inv W).
Qed.
Ltac each := repeat (apply Forall_cons || apply Forall_nil || apply Forall2_cons || apply Forall2_nil).
Example C24_nonvacuous : padded_table wide /\ List.length (rows wide) = 2 /\ List.length (ctypes wide) = 10.
Proof.
  split; [|split; reflexivity]. split; [apply wf_wide|]. split; [reflexivity|]. split; [each; vm_compute; reflexivity|]. split; [left; reflexivity|].
  split; [discriminate|]. split; [each; discriminate|].
  each; (split; [|split]); try exact I; try (cbn; intuition (discriminate || lia)).
  all: cbn; try (intros _; unfold unicode; lia); try (intros [? ?]; lia).
  all: split; [vm_compute; split; discriminate|]; split; [reflexivity|]; split; [vm_compute; split; reflexivity|]; first [left; reflexivity|right; vm_compute; discriminate].
Qed.
Definition narrow_text : string := text2
  "[Narrow]~i s f g b r u~int8 string float64 float32 bool rune uint64~-128 |a b^n^|x^|| 2.5 -1.0e-3 true 'q' 18446744073709551615~0 || NaN 5e-324 false '^n' 9007199254740993~".
Definition narrow : table := Eval vm_compute in tab (fst (NewTableFromString narrow_text [])) 0.
Lemma narrow_read : NewTableFromString narrow_text [] = ([narrow], Ok (Some 0)).
Proof. vm_compute. reflexivity. Qed.
Lemma wf_read s t : NewTableFromString s [] = ([t], Ok (Some 0)) -> wf_table t.
Proof. intros R. destruct (C26_NewTableFromString s [] [t] (Some 0)) as ([W _ _] & _); [apply wf_heap_nil|exact R|]. exact (Forall_inv W). Qed.
Example C23_nonvacuous : unpadded_table narrow /\ List.length (rows narrow) = 2 /\ List.length (ctypes narrow) = 7.
Proof.
  split; [|split; reflexivity]. split; [exact (wf_read _ _ narrow_read)|]. split; [reflexivity|]. split; [each; vm_compute; reflexivity|]. split; [left; reflexivity|].
  split; [discriminate|]. split; [each; unfold unpadded_type; cbn; intuition discriminate|].
  each; try exact I; cbn; try (intros _; unfold unicode; lia); try discriminate.
Qed.
(** A named set of two tables. *)
Definition two_heap : heap := [wide; narrow].
Definition two_set : tset := mkTS "Both" "" [Some 1; Some 0].
Definition small_text : string := text2 "[Small]~i f~int float64~1 2.5~".
Definition small : table := Eval vm_compute in tab (fst (NewTableFromString small_text [])) 0.
Example C24_set_nonvacuous : text_set padded_table [wide; small] two_set /\ valid_name (ts_name two_set) /\ all_ascii_chars (ts_name two_set).
Proof.
  split; [split|split].
  - each; eexists _, _; (split; [reflexivity|split; [reflexivity|]]).
    + split; [apply (wf_read small_text); vm_compute; reflexivity|]. split; [reflexivity|]. split; [each; vm_compute; reflexivity|]. split; [left; reflexivity|].
      split; [discriminate|]. split; [each; discriminate|].
      each; (split; [|split]); try exact I; cbn; intuition (discriminate || lia).
    + apply C24_nonvacuous.
  - repeat constructor; cbn; intuition discriminate.
  - apply IsValidTableName_spec. reflexivity.
  - each; vm_compute; reflexivity.
Qed.

(** ---------- what the text loses ---------- *)

(** The text that [print] makes of [t] is read back as [t]. *)
Definition kept (print : table -> res string) (t : table) : Prop :=
  exists s h2 p t', print t = Ok s /\ NewTableFromString s [] = (h2, Ok (Some p)) /\ nth_error h2 p = Some t' /\ same_content read_back t t'.
Ltac not_kept := intros (s & h2 & p & t' & E & R & N & S); vm_compute in E; injection E as <-; vm_compute in R; first [discriminate R|
  injection R as <- <-; vm_compute in N; injection N as <-; destruct S as (S1 & S2 & S3 & S4 & S5); first [vm_compute in S1; discriminate S1|vm_compute in S4; discriminate S4]].
Ltac read_witness s := let t := eval vm_compute in (tab (fst (NewTableFromString s [])) 0) in
  exists t; split; [apply (wf_read s); vm_compute; reflexivity|].

(** An integer beyond 2^53 is rounded, because printMatrix sends it through a float64. *)
Theorem C24_large_int_refuted : exists t, wf_table t /\ rows t = [[VInt KInt64 (2 ^ 53 + 1)]] /\ ~ kept (StringPadded yes []) t.
Proof. read_witness (text2 "[T]~i~int64~9007199254740993~"). split; [reflexivity|not_kept]. Qed.
(** The largest uint64 is printed as 2^64, which is then refused. *)
Theorem C24_large_uint_refuted : exists t s, wf_table t /\ rows t = [[VInt KUint64 (2 ^ 64 - 1)]] /\ StringPadded yes [] t = Ok s /\ NewTableFromString s [] = ([], Err).
Proof.
  set (w := text2 "[T]~i~uint64~18446744073709551615~").
  let t := eval vm_compute in (tab (fst (NewTableFromString w [])) 0) in let s := eval vm_compute in (StringPadded yes [] t) in
  match s with Ok ?x => exists t, x end. split; [apply (wf_read w); vm_compute; reflexivity|]. repeat split; vm_compute; reflexivity.
Qed.
(** Some powers of two are printed one unit too low. *)
Theorem C24_power_of_two_refuted : exists t, wf_table t /\ rows t = [[VFloat64 (S754_finite false (2 ^ 52) (- 96))]] /\ ~ kept (StringPadded yes []) t.
Proof. read_witness (text2 "[T]~f~float64~0.00000000000005684341886080802~"). split; [reflexivity|not_kept]. Qed.

(** byte, slice and time columns make StringUnpadded return "". *)
Theorem C23_byte_column_refuted : exists t, wf_table t /\ rows t = [[VInt KUint8 7]] /\ StringUnpadded yes [] t = Ok "" /\ ~ kept (StringUnpadded yes []) t.
Proof. read_witness (text2 "[T]~y~byte~7~"). split; [reflexivity|]. split; [vm_compute; reflexivity|not_kept]. Qed.

(** A struct-shape table is printed without quoting the characters of its strings. *)
Theorem C23_struct_shape_refuted : exists t, wf_table t /\ struct_shape t = true /\ rows t = [[VString (String dquote "x")]] /\
  ~ kept (StringUnpadded yes []) t /\ ~ kept (StringPadded yes []) t.
Proof. read_witness (text2 "[T]~s string = |^|x|~"). split; [reflexivity|]. split; [reflexivity|]. split; not_kept. Qed.

Lemma wf_run (m : M unit) : pres 0 m -> wf_table (fst (run m 0 NewNilTable)).
Proof. intros P. apply run_pres; [exact P|apply wf_NewNilTable|constructor]. Qed.
Ltac run_witness m := let t := eval vm_compute in (fst (run m 0 NewNilTable)) in
  exists t; split; [change t with (fst (run m 0 NewNilTable)); apply wf_run; pr; apply pres_SetVal; try reflexivity; exact I|].
(** An infinite float cannot be read. *)
Theorem C23_infinity_refuted : exists t, wf_table t /\ rows t = [[VFloat64 (S754_infinity false)]] /\
  ~ kept (StringUnpadded yes []) t /\ ~ kept (StringPadded yes []) t.
Proof.
  run_witness (SetName "T" ;;; AppendCol "f" "float64" ;;; AppendRow ;;; SetVal "f" 0 (VFloat64 (S754_infinity false))).
  split; [reflexivity|]. split; not_kept.
Qed.
(** Rows of a table without columns are lost. *)
Theorem C23_no_columns_refuted : exists t, wf_table t /\ cnames t = [] /\ rows t = [[]] /\
  ~ kept (StringUnpadded yes []) t /\ ~ kept (StringPadded yes []) t.
Proof.
  run_witness (SetName "T" ;;; AppendRow). split; [reflexivity|]. split; [reflexivity|]. split; not_kept.
Qed.
(** A name with a letter that is not ASCII is valid but cannot be read. *)
Theorem C23_latin1_name_refuted : exists t, wf_table t /\ tname t = String (ascii_of_nat 233) "" /\
  ~ kept (StringUnpadded yes []) t /\ ~ kept (StringPadded yes []) t.
Proof.
  run_witness (SetName (String (ascii_of_nat 233) "") ;;; AppendCol "f" "int"). split; [reflexivity|]. split; not_kept.
Qed.
(** A time whose nanoseconds end in a zero digit cannot be read. *)
Theorem C24_nanoseconds_refuted : exists t, wf_table t /\ rows t = [[VTime (mkTime 63082157400 500000000 0)]] /\ ~ kept (StringPadded yes []) t.
Proof.
  run_witness (SetName "T" ;;; AppendCol "t" "time.Time" ;;; AppendRow ;;; SetVal "t" 0 (VTime (mkTime 63082157400 500000000 0))).
  split; [reflexivity|not_kept].
Qed.
(** StringUnpadded of a set drops the name of the set. *)
Theorem C23_set_name_refuted : exists h s text h2 s', text_set unpadded_table h s /\ ts_name s = "Both" /\ TS_StringUnpadded yes h s = Ok text /\
  NewTableSetFromString text [] = (h2, Ok s') /\ ts_name s' <> ts_name s.
Proof.
  assert (U : text_set unpadded_table [narrow] (mkTS "Both" "" [Some 0])).
  { split; [|repeat constructor; cbn; tauto]. each. exists 0, narrow. repeat split; try apply C23_nonvacuous. }
  destruct (C23_TableSet_StringUnpadded yes _ _ [] U) as (text & h2 & s' & E & R & N & _).
  exists [narrow], (mkTS "Both" "" [Some 0]), text, h2, s'. split; [exact U|]. split; [reflexivity|]. split; [exact E|]. split; [exact R|]. rewrite N. discriminate.
Qed.
(** Of a nested table only the name is written. *)
Theorem C23_nested_refuted : exists h p t s h2 p2 t2 q, nth_error h p = Some t /\ wf_table t /\ ctypes t = ["*Table"] /\
  StringUnpadded yes h t = Ok s /\ NewTableFromString s [] = (h2, Ok (Some p2)) /\ nth_error h2 p2 = Some t2 /\ rows t2 = [[VTable (Some q)]] /\
  (exists r, rows t = [[VTable (Some r)]] /\ rows (tab h r) = rows small /\ rows small <> [] /\ tname (tab h2 q) = tname (tab h r) /\ rows (tab h2 q) = []).
Proof.
  set (outer := text2 "[T]~t~*Table~[Small]~"). 
  let t := eval vm_compute in (tab (fst (NewTableFromString outer [])) 0) in set (o := t).
  assert (R : NewTableFromString outer [] = ([o; with_parent (Some 0) (with_nil false (with_name "Small" NewNilTable))], Ok (Some 0))) by (vm_compute; reflexivity).
  destruct (C26_NewTableFromString outer [] _ _ wf_heap_nil R) as ([W _ _] & _).
  let s := eval vm_compute in (StringUnpadded yes [o; with_parent (Some 0) small] o) in match s with Ok ?x =>
  exists [o; with_parent (Some 0) small], 0, o, x end.
  eexists _, _, _, _. split; [reflexivity|]. split; [exact (Forall_inv W)|]. split; [reflexivity|]. split; [vm_compute; reflexivity|].
  split; [vm_compute; reflexivity|]. split; [reflexivity|]. split; [reflexivity|]. exists 1. repeat split; try (vm_compute; reflexivity). vm_compute. discriminate.
Qed.

(** Axioms used by any theorem of this file. *)
Definition all_Props_Text :=
  (@C23_StringUnpadded,
   @C24_StringPadded,
   @C24_TableSet_StringPadded,
   @C23_TableSet_StringUnpadded,
   @C24_large_int_refuted,
   @C24_large_uint_refuted,
   @C24_power_of_two_refuted,
   @C23_byte_column_refuted,
   @C23_struct_shape_refuted,
   @C23_infinity_refuted,
   @C23_no_columns_refuted,
   @C23_latin1_name_refuted,
   @C24_nanoseconds_refuted,
   @C23_set_name_refuted,
   @C23_nested_refuted).
Print Assumptions all_Props_Text.
