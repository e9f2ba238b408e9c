(** Props_Document.v -- C52: an accepted text is a document, and the tables that are returned
    are what it says, line by line and cell by cell. *)
From Coq Require Import ZArith NArith List String Ascii Bool SpecFloat Lia.
From Verif Require Import Base Model_Names Model_Table Model_Heap Model_TableSet Model_Lex Model_Float Model_Time Model_Parser Spec Spec_Heap Spec_TableSet Spec_Text Spec_Document.
From Verif Require Import Proofs_Lib Proofs_Table Proofs_Heap Proofs_Lex Proofs_Parser Proofs_Lines Proofs_Document Props_Parser.
Import ListNotations.
Local Open Scope string_scope.
Local Open Scope list_scope.

(** The lines of a text are the pieces between its newlines. *)
Theorem C52_lines : forall s, String.concat (String nl "") (lines s) = s /\ Forall (fun l => ~ In nl (list_ascii_of_string l)) (lines s).
Proof.
  induction s as [|c s [IH F]]; [split; [reflexivity|repeat constructor; intros []]|]. cbn [lines].
  destruct (Ascii.eqb_spec c nl) as [->|N].
  - split; [|constructor; [intros []|exact F]]. change (String nl s) with (String nl "" ++ s)%string. rewrite <- IH at 2. destruct (lines s) as [|l ls] eqn:E; [|reflexivity].
    exfalso. destruct s as [|d s]; cbn in E; [discriminate|]. destruct (Ascii.eqb d nl); [discriminate|]. now destruct (lines s).
  - destruct (lines s) as [|l ls] eqn:E.
    { exfalso. destruct s as [|d s]; cbn in E; [discriminate|]. destruct (Ascii.eqb d nl); [discriminate|]. now destruct (lines s). }
    split; [rewrite <- IH; destruct ls; reflexivity|]. inversion F; subst. constructor; auto. cbn. intros [|]; auto.
Qed.

Lemma spacey_app a b : spacey a -> spacey b -> spacey (a ++ b).
Proof. induction 1; intros B; [exact B|]. rewrite app_str_assoc. constructor; auto. Qed.
Lemma trim_removed encs fuel : forall s, exists k, s = (k ++ trim_spaces fuel encs s)%string /\ (encs = space_encodings -> spacey k) /\ (encs = map srev space_encodings -> spacey (srev k)).
Proof.
  induction fuel as [|fuel IH]; intros s; cbn [trim_spaces]; [exists ""; repeat split; constructor|].
  destruct (strip_space encs s) as [r|] eqn:E; [|exists ""; repeat split; constructor].
  apply strip_some in E as (e & I & ->). destruct (IH r) as (k & Q & A & B). exists (e ++ k)%string. rewrite app_str_assoc, <- Q. split; [reflexivity|]. split.
  - intros ->. constructor; auto.
  - intros ->. rewrite srev_app_str. apply spacey_app; auto. apply in_map_iff in I as (e' & <- & I). rewrite srev_srev, <- (app_str_nil_r e'). constructor; [exact I|constructor].
Qed.
(** Trimming a line removes the white space on both sides and nothing else. *)
Theorem C52_trimmed : forall s, (exists a b, s = (a ++ TrimSpace s ++ b)%string /\ spacey a /\ spacey b)
  /\ ~ starts_with_space (TrimSpace s) /\ ~ ends_with_space (TrimSpace s).
Proof.
  intros s. split; [|split].
  - unfold TrimSpace. cbv zeta. destruct (trim_removed space_encodings (String.length s) s) as (a & Q & A & _).
    set (l := trim_spaces (String.length s) space_encodings s) in *.
    destruct (trim_removed (map srev space_encodings) (String.length l) (srev l)) as (b & Q2 & _ & B).
    exists a, (srev b). split; [|split; [now apply A|now apply B]]. rewrite <- srev_app_str, <- Q2, srev_srev. exact Q.
  - intros (e & r & I & E). pose proof (proj1 (strip_none _ _) (TrimSpace_head s) e I) as P. rewrite E, prefix_app in P. discriminate.
  - intros (e & r & I & E). pose proof (proj1 (strip_none _ _) (TrimSpace_tail s) (srev e) (in_map srev _ _ I)) as P. rewrite E, srev_app_str, prefix_app in P. discriminate.
Qed.

(** C52.  Whatever the text: if it is accepted, its significant lines are a document that says
    what the table set contains, in this order. *)
Theorem C52_document : forall s h h' ts, wf_heap h -> NewTableSetFromString s h = (h', Ok ts) ->
  exists n, document h' (significant (lines s)) n (ts_tables ts) /\ ts_name ts = match n with Some x => x | None => "" end.
Proof.
  intros s h h' ts W E. unfold NewTableSetFromString in E. rewrite parse_run in E.
  set (g := mkPS h (NewTableSet "") TABLE_NAME UNDEFINED_SHAPE false [] [] false None) in *.
  destruct (run_lines (no_comments (lines s)) g) as [g'| |] eqn:R; try discriminate. injection E as <- <-.
  assert (V : inv h g) by (split; [constructor; auto; try constructor; lia|exact I]).
  pose proof (run_spec h _ g g' (no_comments_ok _) V R) as [_ (n & os & D & A & B & _)]. rewrite no_comments_significant in D.
  exists n. cbn in A. rewrite A. split; [exact D|exact B].
Qed.
(** The same for a text with one table *)
Theorem C52_one_table : forall s h h' o, wf_heap h -> NewTableFromString s h = (h', Ok o) ->
  exists n, document h' (significant (lines s)) n [o].
Proof.
  intros s h h' o W E. unfold NewTableFromString in E. destruct (NewTableSetFromString s h) as [h1 [ts| |]] eqn:P; try discriminate.
  cbn [rbind] in E. destruct (C52_document s h h1 ts W P) as (n & D & _).
  destruct (TableCount ts =? 1)%Z eqn:C; cbn [negb] in E; [|discriminate].
  unfold GetTableByTableIndex, TableCount in *. apply Z.eqb_eq in C. destruct (ts_tables ts) as [|o1 [|]]; cbn in *; try lia.
  injection E as <- <-. eauto.
Qed.

(** ---------- what is not so ---------- *)

(** What a program sees of the tables read from a text, when there are none yet *)
Definition shown (s : string) : option (list (string * list string * list string * list (list value))) :=
  match NewTableSetFromString s [] with
  | (h, Ok ts) => Some (map (fun o => match o with Some p => let t := tab h p in (tname t, cnames t, ctypes t, rows t) | None => ("", [], [], []) end) (ts_tables ts))
  | _ => None
  end.
Definition text (ls : list string) : string := String.concat (String nl "") ls.

(** Text that is no cell is ignored before a rune, a time or NaN. *)
Theorem C52_ignored_text_refuted : ~ (forall cell, shown (text ["[t]"; "a"; "rune"; cell]) <> None -> exists c, cell = String squote (c ++ String squote "")%string)
  /\ shown (text ["[t]"; "a f"; "rune float64"; "one 'x' two NaN"]) = shown (text ["[t]"; "a f"; "rune float64"; "'x' NaN"])
  /\ shown (text ["[t]"; "a"; "rune"; "'x'"]) <> None.
Proof.
  split; [|split; [vm_compute; reflexivity|vm_compute; discriminate]].
  intros H. destruct (H "one 'x'") as [c E]; [vm_compute; discriminate|]. discriminate E.
Qed.
(** Cells need nothing between them: one text can become several cells. *)
Theorem C52_separator_refuted : shown (text ["[t]"; "a b"; "int float64"; "1.5"]) = shown (text ["[t]"; "a b"; "int float64"; "1 0.5"])
  /\ shown (text ["[t]"; "a b"; "int float64"; "1 0.5"]) <> None.
Proof. split; [vm_compute; reflexivity|vm_compute; discriminate]. Qed.
(** In struct shape, the first line decides whether there are values: without one, those of later lines are dropped. *)
Theorem C52_dropped_value_refuted : shown (text ["[t]"; "a int"; "b int = 5"]) = shown (text ["[t]"; "a int"; "b int"])
  /\ shown (text ["[t]"; "a int"; "b int"]) <> None.
Proof. split; [vm_compute; reflexivity|vm_compute; discriminate]. Qed.
(** ... and text before the equals sign of a later line is ignored *)
Theorem C52_text_before_equals_refuted : shown (text ["[t]"; "a int = 4"; "b int 7 = 5"]) = shown (text ["[t]"; "a int = 4"; "b int = 5"])
  /\ shown (text ["[t]"; "a int = 4"; "b int = 5"]) <> None.
Proof. split; [vm_compute; reflexivity|vm_compute; discriminate]. Qed.
(** A text that ends after a line of column names is accepted, without the columns. *)
Theorem C52_lost_columns_refuted : shown (text ["[t]"; "a b"]) = shown (text ["[t]"]) /\ shown (text ["[t]"]) <> None
  /\ shown (text ["[t]"; "a b"; ""]) = None.
Proof. split; [vm_compute; reflexivity|]. split; [vm_compute; discriminate|vm_compute; reflexivity]. Qed.

(** The white space between words is these bytes, and between the cells of a row a space or a tab. *)
Theorem C52_white_bytes : forall c, (is_white c = true <-> In (N_of_ascii c) [9; 10; 12; 13; 32]%N) /\ (is_blank c = true <-> In (N_of_ascii c) [9; 32]%N).
Proof.
  intros c. split; split; destruct c as [[] [] [] [] [] [] [] []]; vm_compute; intros H; try reflexivity; try discriminate H; auto 10; repeat (destruct H as [H|H]; [discriminate H|]); contradiction.
Qed.

(** A text with every kind of line *)
Definition all_kinds : string := text
  ["# two tables"; "[[both]]"; ""; "  [people]  "; "name   age"; "string int"; "# the rows"; """Ann""  31"; """Bo"" -4"; ""; "[point]"; "x float64 = 1.5"; "y bool = true"].
Example C52_nonvacuous : shown all_kinds =
  Some [("people", ["name"; "age"], ["string"; "int"], [[VString "Ann"; VInt KInt 31]; [VString "Bo"; VInt KInt (-4)]]);
        ("point", ["x"; "y"], ["float64"; "bool"], [[VFloat64 (S754_finite false 6755399441055744 (-52)); VBool true]])]
  /\ significant (lines all_kinds) =
  ["[[both]]"; ""; "[people]"; "name   age"; "string int"; """Ann""  31"; """Bo"" -4"; ""; "[point]"; "x float64 = 1.5"; "y bool = true"]
  /\ match NewTableSetFromString all_kinds [] with (_, Ok ts) => ts_name ts = "both" | _ => False end.
Proof. vm_compute. repeat split. Qed.

(** Axioms used by any theorem of this file. *)
Definition all_Props_Document :=
  (@C52_lines,
   @C52_trimmed,
   @C52_document,
   @C52_one_table,
   @C52_ignored_text_refuted,
   @C52_separator_refuted,
   @C52_dropped_value_refuted,
   @C52_text_before_equals_refuted,
   @C52_lost_columns_refuted,
   @C52_white_bytes).
Print Assumptions all_Props_Document.
