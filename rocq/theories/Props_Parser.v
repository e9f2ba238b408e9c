(** Props_Parser.v -- C25, C26: what reading text can do. *)
From Coq Require Import ZArith NArith List String Ascii Bool SpecFloat Lia.
From Verif Require Import Base Model_Names Model_Table Model_Sort Model_Copy Model_Ops Model_Heap Model_TableSet
  Model_Lex Model_Float Model_Time Model_Parser Spec Spec_Heap Spec_TableSet Proofs_Lib Proofs_Table Proofs_Heap Proofs_Frame Proofs_TableSet Proofs_Parser.
Import ListNotations.
Local Open Scope string_scope.
Local Open Scope list_scope.

(** C25.  For every string, whatever tables exist, reading it returns a value or an error. *)
Theorem C25_NewTableSetFromString : forall s h, wf_heap h -> snd (NewTableSetFromString s h) <> Panic.
Proof. intros s h W. pose proof (parse_ok h s W). destruct (NewTableSetFromString s h) as [h' [ts| |]]; [discriminate..|easy]. Qed.
Theorem C25_NewTableFromString : forall s h, wf_heap h -> snd (NewTableFromString s h) <> Panic.
Proof.
  intros s h W. pose proof (C25_NewTableSetFromString s h W) as N. unfold NewTableFromString.
  destruct (NewTableSetFromString s h) as [h' [ts| |]]; [|discriminate|easy]. cbn [snd rbind].
  destruct (Z.eqb_spec (TableCount ts) 1) as [E|]; cbn [negb]; [|discriminate].
  unfold GetTableByTableIndex, TableCount in *. destruct (ts_tables ts) as [|o [|]]; cbn in *; try lia. discriminate.
Qed.
Theorem C25_ByTableName : forall s n h, wf_heap h -> snd (NewTableFromStringByTableName s n h) <> Panic.
Proof.
  intros s n h W. pose proof (C25_NewTableSetFromString s h W) as N. unfold NewTableFromStringByTableName.
  destruct (NewTableSetFromString s h) as [h' [ts| |]]; [|discriminate|easy]. cbn [snd rbind].
  unfold GetTable. destruct (find_table _ _ _); discriminate.
Qed.
Theorem C25_ByTableIndex : forall s i h, wf_heap h -> snd (NewTableFromStringByTableIndex s i h) <> Panic.
Proof.
  intros s i h W. pose proof (C25_NewTableSetFromString s h W) as N. unfold NewTableFromStringByTableIndex.
  destruct (NewTableSetFromString s h) as [h' [ts| |]]; [|discriminate|easy]. cbn [snd rbind].
  unfold GetTableByTableIndex. destruct (_ || _)%bool eqn:C; [discriminate|].
  destruct (znth (ts_tables ts) i) eqn:E; [discriminate|]. exfalso.
  apply orb_false_iff in C as [C1 C2]. unfold TableCount in *.
  apply Z.ltb_ge in C1. rewrite Z.gtb_ltb in C2. apply Z.ltb_ge in C2.
  apply znth_none in E. lia.
Qed.

(** C26.  What a successful call returns: new tables, each well formed and not a NilTable, with
    pairwise distinct names; the tables that existed before are untouched, and so are all
    the nested tables well formed (wf_heap). *)
Definition accepted (h h' : heap) (o : ref) : Prop :=
  exists p t, o = Some p /\ List.length h <= p /\ nth_error h' p = Some t /\ is_nil t = false /\ wf_table t.

Theorem C26_NewTableSetFromString : forall s h h' ts, wf_heap h -> NewTableSetFromString s h = (h', Ok ts) ->
  wf_heap h' /\ NoDup (set_names h' ts) /\ Forall (accepted h h') (ts_tables ts)
  /\ (forall q, q < List.length h -> nth_error h' q = nth_error h q).
Proof.
  intros s h h' ts W E. pose proof (parse_ok h s W) as B. rewrite E in B. destruct B as [b1 b2 b3 b4 b5 b6].
  repeat split; auto; try apply b1. apply Forall_forall. intros o I. rewrite Forall_forall in b3, b4.
  destruct (b4 o I) as (p & -> & L). destruct (nth_error_lt h' p (proj2 L)) as [t T].
  assert (Wt : wf_table t) by (eapply Forall_nth_error; [apply b1|exact T]).
  exists p, t. repeat split; auto; try apply L; try apply Wt. apply name_not_nil; [exact Wt|].
  assert (Q : tname (tab h' p) <> "") by (apply (b3 (ref_name h' (Some p))); apply in_map; exact I).
  unfold tab in Q. now rewrite (nth_error_nth _ _ NewNilTable T) in Q.
Qed.
Theorem C26_NewTableFromString : forall s h h' o, wf_heap h -> NewTableFromString s h = (h', Ok o) ->
  wf_heap h' /\ accepted h h' o /\ (forall q, q < List.length h -> nth_error h' q = nth_error h q).
Proof.
  intros s h h' o W E. unfold NewTableFromString in E. destruct (NewTableSetFromString s h) as [h1 [ts| |]] eqn:P; try discriminate.
  cbn [rbind] in E. destruct (C26_NewTableSetFromString s h h1 ts W P) as (W1 & _ & F & O).
  destruct (TableCount ts =? 1)%Z eqn:C; cbn [negb] in E; [|discriminate].
  unfold GetTableByTableIndex, TableCount in *. apply Z.eqb_eq in C. destruct (ts_tables ts) as [|o1 [|]]; cbn in *; try lia.
  injection E as <- <-. inversion F; subst. auto.
Qed.
Theorem C26_ByTableName : forall s n h h' o, wf_heap h -> NewTableFromStringByTableName s n h = (h', Ok o) ->
  wf_heap h' /\ accepted h h' o /\ ref_name h' o = n /\ (forall q, q < List.length h -> nth_error h' q = nth_error h q).
Proof.
  intros s n h h' o W E. unfold NewTableFromStringByTableName in E.
  destruct (NewTableSetFromString s h) as [h1 [ts| |]] eqn:P; try discriminate.
  cbn [rbind] in E. destruct (C26_NewTableSetFromString s h h1 ts W P) as (W1 & _ & F & O).
  unfold GetTable in E. pose proof (find_table_spec h1 n (ts_tables ts)) as FS. destruct (find_table h1 n (ts_tables ts)) as [o1|]; [|discriminate].
  injection E as <- <-. destruct FS as (i & N & R & _). apply nth_error_In in N. rewrite Forall_forall in F. auto.
Qed.

(** Concrete texts: ~ stands for a line end and | for a double quote. *)
Definition text (s : string) : string :=
  string_of_list_ascii (map (fun c => if Ascii.eqb c "~" then nl else if Ascii.eqb c "|" then dquote else c) (list_ascii_of_string s)).
(** Two tables, a comment, a struct-shape table, nested tables. *)
Definition sample_text : string := text
  "# a comment~[[Set]]~[T]~a s        f       t~int string float64 *Table~1 |x|     2.5     [U]~-7 |y z| NaN     []~~[S]~b bool = true~r rune = 'q'~".
Definition sample_parse := Eval vm_compute in NewTableSetFromString sample_text [].
Example C26_nonvacuous : NewTableSetFromString sample_text [] = sample_parse
  /\ match sample_parse with
     | (h, Ok ts) => ts_name ts = "Set" /\ set_names h ts = ["T"; "S"] /\ List.length h = 4
         /\ map (fun t => List.length (rows t)) h = [2; 0; 0; 1] /\ map cnames h = [["a"; "s"; "f"; "t"]; []; []; ["b"; "r"]]
     | _ => False
     end.
Proof. split; [vm_compute; reflexivity|]. repeat split; vm_compute; reflexivity. Qed.
(** Texts that are refused: an unbalanced quote, a number out of range, a missing type line, two
    tables with one name, no table, an empty rune. *)
Example C25_nonvacuous :
  let no s := snd (NewTableSetFromString (text s) []) = Err in
  no "[T]~s~string~|x~" /\ no "[T]~a~int8~128~" /\ no "[T]~a b~~" /\ no "[T]~a~int~~[T]~a~int~" /\ no "]" /\ no "[T]~r~rune~''~".
Proof. cbv zeta. repeat split; vm_compute; reflexivity. Qed.

(** Axioms used by any theorem of this file. *)
Definition all_Props_Parser :=
  (@C25_NewTableSetFromString,
   @C25_NewTableFromString,
   @C25_ByTableName,
   @C25_ByTableIndex,
   @C26_NewTableSetFromString,
   @C26_NewTableFromString,
   @C26_ByTableName).
Print Assumptions all_Props_Parser.
