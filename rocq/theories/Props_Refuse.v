(** Props_Refuse.v -- C62: a text that breaks the rules is refused. *)
From Coq Require Import ZArith NArith List String Ascii Bool SpecFloat Lia.
From Verif Require Import Base Model_Names Model_Table Model_Heap Model_TableSet Model_Lex Model_Float Model_Time Model_Parser Spec Spec_Heap Spec_TableSet Spec_Text Spec_Decimal Spec_Document Spec_Grammar Spec_Refuse.
From Verif Require Import Proofs_Lib Proofs_Table Proofs_Heap Proofs_TableSet Proofs_Lex Proofs_Parser Proofs_Lines Proofs_Float Proofs_Closest Proofs_Document Proofs_Token Proofs_Grammar Proofs_Refuse
  Props_Parser Props_Grammar.
Import ListNotations.
Local Open Scope string_scope.
Local Open Scope list_scope.

(** C62.  The significant lines (trimmed, without comment lines) are written by the rules up
    to a mistake, whatever follows it: the result is an error. *)
Theorem C62_refused : forall s h, wf_heap h -> set_wrong [] false (significant (lines s)) -> snd (NewTableSetFromString s h) = Err.
Proof.
  intros s h W X. pose proof (refuses s h W X) as F. pose proof (C25_NewTableSetFromString s h W) as N.
  destruct (snd (NewTableSetFromString s h)) as [ts| |]; [now specialize (F ts)|reflexivity|congruence].
Qed.
Lemma refused_pair s h : wf_heap h -> set_wrong [] false (significant (lines s)) -> exists h', NewTableSetFromString s h = (h', Err).
Proof. intros W X. pose proof (C62_refused s h W X). destruct (NewTableSetFromString s h) as [h' r]. cbn in *. subst. eauto. Qed.
Theorem C62_one_table : forall s h, wf_heap h -> set_wrong [] false (significant (lines s)) -> snd (NewTableFromString s h) = Err.
Proof. intros s h W X. destruct (refused_pair s h W X) as (h' & E). unfold NewTableFromString. now rewrite E. Qed.
Theorem C62_by_name : forall s n h, wf_heap h -> set_wrong [] false (significant (lines s)) -> snd (NewTableFromStringByTableName s n h) = Err.
Proof. intros s n h W X. destruct (refused_pair s h W X) as (h' & E). unfold NewTableFromStringByTableName. now rewrite E. Qed.
Theorem C62_by_index : forall s i h, wf_heap h -> set_wrong [] false (significant (lines s)) -> snd (NewTableFromStringByTableIndex s i h) = Err.
Proof. intros s i h W X. destruct (refused_pair s h W X) as (h' & E). unfold NewTableFromStringByTableIndex. now rewrite E. Qed.
(** No text is both written by the rules and wrong. *)
Theorem C62_apart : forall s n ds, set_written (significant (lines s)) n ds -> NoDup (map td_name ds) -> ~ set_wrong [] false (significant (lines s)).
Proof.
  intros s n ds SW ND X. destruct (C60_accepted s n ds [] wf_heap_nil SW ND) as (h' & ts & E & _). pose proof (C62_refused s [] wf_heap_nil X) as R. now rewrite E in R.
Qed.

(** A mistake of each kind.  The first table of the text is right, the last one is not. *)
Definition good_start : list string := ["[[both]]"; "[people]"; "name age raw"; "string int []byte"; """A\tn"" 31 [1 255]"; """"" -4 []"; ""].
Definition right_start : string := 
  ("[[both]]" ++ nl1 ++ "[people]" ++ nl1 ++ "name age raw" ++ nl1 ++ "# a comment" ++ nl1 ++ "string int []byte" ++ nl1 ++ q1 ++ "A\tn" ++ q1 ++ " 31 [1 255]" ++ nl1 ++ q1 ++ q1 ++ " -4 []" ++ nl1 ++ nl1)%string.
Definition mistakes : list string :=
  ["people are not a table"; "[[again]]"; "[people]";
   ("[t]" ++ nl1 ++ "a 2b")%string;
   ("[t]" ++ nl1 ++ "a b" ++ nl1 ++ "string inty")%string;
   ("[t]" ++ nl1 ++ "a b" ++ nl1 ++ "int")%string;
   ("[t]" ++ nl1 ++ "a a" ++ nl1 ++ "int int")%string;
   ("[t]" ++ nl1 ++ "a b" ++ nl1 ++ nl1 ++ "1 2")%string;
   ("[t]" ++ nl1 ++ "a b" ++ nl1 ++ "int8 bool" ++ nl1 ++ "31 true" ++ nl1 ++ "255 true")%string;
   ("[t]" ++ nl1 ++ "a b" ++ nl1 ++ "int8 bool" ++ nl1 ++ "31 true" ++ nl1 ++ "31 truely" ++ nl1 ++ "31 true")%string;
   ("[t]" ++ nl1 ++ "a b" ++ nl1 ++ "int8 bool" ++ nl1 ++ "31" ++ nl1)%string;
   ("[t]" ++ nl1 ++ "a b" ++ nl1 ++ "int8 bool" ++ nl1 ++ "31 true 31" ++ nl1)%string].
Lemma start_lines : forall m, In m mistakes -> exists ls, significant (lines (right_start ++ m)%string) = good_start ++ ls /\ ls = significant (lines m).
Proof. intros m I. unfold mistakes in I. repeat (destruct I as [<-|I]; [eexists; split; vm_compute; reflexivity|]). destruct I. Qed.
Lemma start_wrong ls : set_wrong ["people"] true ls -> set_wrong [] false (good_start ++ ls).
Proof.
  intros W. pose proof say_ok as O. inversion O as [|? ? O1 _]; subst. unfold good_start. cbn [app]. apply (sx_name [] "both"); [pn|].
  apply (sx_table [] true people ["name age raw"; "string int []byte"; """A\tn"" 31 [1 255]"; """"" -4 []"] ls); [exact O1| |intros []|exact W].
  apply bw_table; [reflexivity|..].
  - apply (words_more "name" " " _ "age raw"); [aw|bl|discriminate|]. apply (words_more "age" " " _ "raw"); [aw|bl|discriminate|]. apply words_one. aw.
  - apply (words_more "string" " " _ "int []byte"); [aw|bl|discriminate|]. apply (words_more "int" " " _ "[]byte"); [aw|bl|discriminate|]. apply words_one. aw.
  - apply Forall2_cons; [|apply Forall2_cons; [|apply Forall2_nil]].
    + apply (rw_more "string" """A\tn""" _ " " _ "31 [1 255]"); [exact cs1|bl|discriminate|]. apply (rw_more "int" "31" _ " " _ "[1 255]"); [apply c31, n31|bl|discriminate|].
      apply rw_one. exact (cslice "1" "255" n1 n255).
    + apply (rw_more "string" """""" _ " " _ "-4 []"); [exact cs0|bl|discriminate|]. apply (rw_more "int" "-4" _ " " _ "[]"); [exact c4|bl|discriminate|]. apply rw_one. exact c_none.
Qed.
Lemma two_words a b : a_word a -> a_word b -> words [a; b] (a ++ " " ++ b).
Proof. intros A B. apply (words_more a " " _ b); [exact A|bl|discriminate|]. now apply words_one. Qed.
Lemma c31_8 : cell_written "int8" "31" (Value (VInt KInt8 31)).
Proof. apply (cw_int "int8" KInt8); [reflexivity|apply lit_unsigned, n31|split; vm_compute; discriminate || reflexivity]. Qed.
Lemma r31 : row_written ["int8"; "bool"] "31 true" [Value (VInt KInt8 31); Value (VBool true)].
Proof. apply (rw_more "int8" "31" _ " " _ "true"); [exact c31_8|bl|discriminate|]. apply rw_one. apply cw_true. Qed.
Lemma mistakes_wrong : forall m, In m mistakes -> set_wrong ["people"] true (significant (lines m)).
Proof.
  assert (AB : Forall valid_name ["a"; "b"]) by (apply Forall_cons; [nm|]; apply Forall_cons; [nm|apply Forall_nil]).
  assert (IB : Forall (fun ct => In ct all_types) ["int8"; "bool"]) by (apply Forall_cons; [apply str_in_In; reflexivity|]; apply Forall_cons; [apply str_in_In; reflexivity|apply Forall_nil]).
  assert (T : forall body ls, body_wrong body -> set_wrong ["people"] true ("[t]" :: body ++ ls)).
  { intros body ls. apply (sx_body ["people"] true "t" body ls); [pn|]. intros [Q|[]]. discriminate. }
  intros m I. unfold mistakes in I. destruct I as [<-|[<-|[<-|[<-|[<-|[<-|[<-|[<-|[<-|[<-|[<-|[<-|[]]]]]]]]]]]]];
    match goal with |- set_wrong _ _ (significant (lines ?m)) => let x := eval vm_compute in (significant (lines m)) in change (significant (lines m)) with x end.
  - apply sx_line. discriminate.
  - apply (sx_two_names ["people"] "again"). pn.
  - apply (sx_twice ["people"] true "people"); [pn|now left].
  - apply (T ["a 2b"] []). apply (bx_name ["a"; "2b"]); [apply (two_words "a" "2b"); aw| |].
    + apply Exists_cons_tl, Exists_cons_hd. intros V. apply IsValidColName_spec in V. vm_compute in V. discriminate.
    + intros w [= <-] J. apply str_in_In in J. discriminate.
  - apply (T ["a b"; "string inty"] []). apply (bx_type ["a"; "b"] "a b" ["string"; "inty"]); [apply (two_words "a" "b"); aw|exact AB|apply (two_words "string" "inty"); aw|].
    apply Exists_cons_tl, Exists_cons_hd. intros J. apply str_in_In in J. discriminate.
  - apply (T ["a b"; "int"] []). apply (bx_count ["a"; "b"] "a b" ["int"]); [apply (two_words "a" "b"); aw|exact AB|apply words_one; aw|discriminate].
  - apply (T ["a a"; "int int"] []). apply (bx_same_name ["a"; "a"] "a a" ["int"; "int"]); [apply (two_words "a" "a"); aw| |apply (two_words "int" "int"); aw|].
    + apply Forall_cons; [nm|]; apply Forall_cons; [nm|apply Forall_nil].
    + intros N. inversion N as [|? ? K _]. apply K. now left.
  - apply (T ["a b"; ""] ["1 2"]). apply (bx_no_types ["a"; "b"]); [apply (two_words "a" "b"); aw|exact AB].
  - apply (T ["a b"; "int8 bool"; "31 true"; "255 true"] []). apply (bx_row ["a"; "b"] "a b" ["int8"; "bool"] "int8 bool" ["31 true"] _ "255 true"
      (two_words "a" "b" ltac:(aw) ltac:(aw)) AB ltac:(nd) (two_words "int8" "bool" ltac:(aw) ltac:(aw)) IB eq_refl (Forall2_cons _ _ r31 (Forall2_nil _))).
    apply (rx_cell "int8" "255" ["bool"] " true"); [|right; eauto]. apply (cx_range "int8" KInt8 "255" 255); [reflexivity|apply lit_unsigned, n255|]. intros [_ Q]. vm_compute in Q. discriminate.
  - apply (T ["a b"; "int8 bool"; "31 true"; "31 truely"] ["31 true"]). apply (bx_row ["a"; "b"] "a b" ["int8"; "bool"] "int8 bool" ["31 true"] _ "31 truely"
      (two_words "a" "b" ltac:(aw) ltac:(aw)) AB ltac:(nd) (two_words "int8" "bool" ltac:(aw) ltac:(aw)) IB eq_refl (Forall2_cons _ _ r31 (Forall2_nil _))).
    apply (rx_later "int8" "31" _ " " ["bool"] "t" "ruely" c31_8); [bl|discriminate|reflexivity|]. apply (rx_cell "bool" "truely" [] ""); [|now left].
    apply cx_bool; try discriminate. apply every_all. reflexivity.
  - apply (T ["a b"; "int8 bool"; "31"] [""]). apply (bx_row ["a"; "b"] "a b" ["int8"; "bool"] "int8 bool" [] _ "31"
      (two_words "a" "b" ltac:(aw) ltac:(aw)) AB ltac:(nd) (two_words "int8" "bool" ltac:(aw) ltac:(aw)) IB eq_refl (Forall2_nil _)).
    apply (rx_few "int8" "31" _ "bool" [] c31_8).
  - apply (T ["a b"; "int8 bool"; "31 true 31"] [""]). apply (bx_row ["a"; "b"] "a b" ["int8"; "bool"] "int8 bool" [] _ "31 true 31"
      (two_words "a" "b" ltac:(aw) ltac:(aw)) AB ltac:(nd) (two_words "int8" "bool" ltac:(aw) ltac:(aw)) IB eq_refl (Forall2_nil _)).
    apply (rx_later "int8" "31" _ " " ["bool"] "t" "rue 31" c31_8); [bl|discriminate|reflexivity|].
    apply (rx_many "bool" "true" (Value (VBool true)) " " "3" "1"); [apply cw_true|bl|discriminate|reflexivity].
Qed.
Example C62_nonvacuous : forall m, In m mistakes -> set_wrong [] false (significant (lines (right_start ++ m)%string)) /\ snd (NewTableSetFromString (right_start ++ m) []) = Err.
Proof.
  intros m I. destruct (start_lines m I) as (ls & E & L). assert (W : set_wrong [] false (significant (lines (right_start ++ m)%string))).
  { rewrite E. apply start_wrong. subst ls. now apply mistakes_wrong. }
  split; [exact W|]. apply C62_refused; [apply wf_heap_nil|exact W].
Qed.

(** Axioms used by any theorem of this file. *)
Definition all_Props_Refuse :=
  (@C62_refused,
   @C62_one_table,
   @C62_by_name,
   @C62_by_index,
   @C62_apart).
Print Assumptions all_Props_Refuse.
