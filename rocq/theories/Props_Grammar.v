(** Props_Grammar.v -- C60: every text written by the rules is accepted and gives exactly the
    tables it says, however it is laid out. *)
From Coq Require Import ZArith NArith List String Ascii Bool SpecFloat Lia.
From Verif Require Import Base Model_Names Model_Table Model_Heap Model_TableSet Model_Lex Model_Float Model_Time Model_Parser Spec Spec_Heap Spec_TableSet Spec_Text Spec_Decimal Spec_Document Spec_Grammar.
From Verif Require Import Proofs_Lib Proofs_Table Proofs_Heap Proofs_TableSet Proofs_Lex Proofs_Parser Proofs_Lines Proofs_Float Proofs_Closest Proofs_Document Proofs_Token Proofs_Grammar.
Import ListNotations.
Local Open Scope string_scope.
Local Open Scope list_scope.

(** C60.  The significant lines (trimmed, without comment lines) are written by the rules: the
    text is accepted, the table set has the name and the tables in this order, each with its
    name, shape, columns and cells, and no table that existed is touched. *)
Theorem C60_accepted : forall s n ds h, wf_heap h -> set_written (significant (lines s)) n ds -> NoDup (map td_name ds) ->
  exists h' ts, NewTableSetFromString s h = (h', Ok ts) /\ ts_name ts = match n with Some x => x | None => "" end /\
    Forall2 (table_read h h') ds (ts_tables ts) /\ wf_heap h' /\ (forall p : ptr, p < List.length h -> nth_error h' p = nth_error h p).
Proof.
  intros s n ds h W SW ND. unfold NewTableSetFromString. rewrite parse_run, run_t_eq, no_comments_significant.
  set (g := mkPS h (NewTableSet "") TABLE_NAME UNDEFINED_SHAPE false [] [] false None).
  assert (B : binv h (ps_heap g) (ps_set g)) by (constructor; auto; try constructor; lia).
  assert (C : Forall (fun l => comment l = false) (significant (lines s))).
  { rewrite <- no_comments_significant. apply Forall_map. apply no_comments_ok. }
  destruct (set_run h _ n ds SW C g B eq_refl (fun _ => eq_refl)) as (g' & os & E & B' & [_ K] & T & F & N); [exact ND|].
  rewrite E. exists (ps_heap g'), (ps_set g'). split; [reflexivity|]. split; [exact N|]. cbn in T. rewrite T. split; [exact F|]. split; [apply B'|exact K].
Qed.

(** A text with one table *)
Theorem C60_one_table : forall s n d h, wf_heap h -> set_written (significant (lines s)) n [d] ->
  exists h' o, NewTableFromString s h = (h', Ok o) /\ table_read h h' d o /\ wf_heap h' /\ (forall p : ptr, p < List.length h -> nth_error h' p = nth_error h p).
Proof.
  intros s n d h W SW. destruct (C60_accepted s n [d] h W SW) as (h' & ts & E & _ & F & W' & K); [repeat constructor; intros []|].
  unfold NewTableFromString. rewrite E. inversion F as [|? o ? ? R F']; subst. inversion F'; subst.
  exists h', o. unfold TableCount, GetTableByTableIndex. destruct ts as [a b c]. cbn in *. subst c. cbn. auto.
Qed.

Lemma forall2_names h h' ds os : Forall2 (table_read h h') ds os -> map (ref_name h') os = map td_name ds.
Proof.
  induction 1 as [|d o ds os (p & t & -> & _ & N & _ & E & _) F IH]; [reflexivity|]. cbn [map]. rewrite IH. f_equal. cbn. unfold tab. now rewrite (nth_error_nth _ _ _ N).
Qed.
Lemma forall2_pick {A B} (P : A -> B -> Prop) xs ys i x : Forall2 P xs ys -> nth_error xs i = Some x -> exists y, nth_error ys i = Some y /\ P x y.
Proof. intros F. revert i. induction F as [|a b xs ys R F IH]; intros [|i] E; try discriminate; cbn in *; [injection E as <-; eauto|auto]. Qed.

(** A table of the text, by its name and by its place *)
Theorem C60_by_name : forall s n ds d h, wf_heap h -> set_written (significant (lines s)) n ds -> NoDup (map td_name ds) -> In d ds ->
  exists h' o, NewTableFromStringByTableName s (td_name d) h = (h', Ok o) /\ table_read h h' d o.
Proof.
  intros s n ds d h W SW ND I. destruct (C60_accepted s n ds h W SW ND) as (h' & ts & E & _ & F & W' & K).
  unfold NewTableFromStringByTableName. rewrite E. cbn [rbind]. apply In_nth_error in I as [i I]. destruct (forall2_pick _ _ _ _ _ F I) as (o & O & R).
  exists h', o. split; [|exact R]. f_equal. unfold GetTable. destruct R as (p & t & -> & _ & N & _ & Tn & _).
  rewrite (find_table_in h' (td_name d) (ts_tables ts) (Some p)); [reflexivity|..].
  - rewrite (forall2_names _ _ _ _ F). exact ND.
  - eapply nth_error_In; eauto.
  - cbn. unfold tab. now rewrite (nth_error_nth _ _ _ N).
Qed.
Theorem C60_by_index : forall s n ds d i h, wf_heap h -> set_written (significant (lines s)) n ds -> NoDup (map td_name ds) -> nth_error ds i = Some d ->
  exists h' o, NewTableFromStringByTableIndex s (Z.of_nat i) h = (h', Ok o) /\ table_read h h' d o.
Proof.
  intros s n ds d i h W SW ND I. destruct (C60_accepted s n ds h W SW ND) as (h' & ts & E & _ & F & W' & K).
  unfold NewTableFromStringByTableIndex. rewrite E. cbn [rbind]. destruct (forall2_pick _ _ _ _ _ F I) as (o & O & R).
  exists h', o. split; [|exact R]. f_equal. unfold GetTableByTableIndex.
  assert (L : i < List.length (ts_tables ts)) by (apply nth_error_Some; congruence).
  unfold TableCount. rewrite (proj2 (Z.ltb_ge _ _)) by lia. replace (Z.of_nat i >? Z.of_nat (List.length (ts_tables ts)) - 1)%Z with false by lia. cbn [orb]. rewrite znth_of_nat, O. reflexivity.
Qed.

(** However the text is laid out: two texts that say the same give the same tables. *)
Lemma pair_up {A B C} (P : A -> B -> Prop) (Q : A -> C -> Prop) (R : B -> C -> Prop) xs ys zs :
  (forall x y z, P x y -> Q x z -> R y z) -> Forall2 P xs ys -> Forall2 Q xs zs -> Forall2 R ys zs.
Proof. intros H F. revert zs. induction F as [|x y xs ys p F IH]; intros zs G; inversion G; subst; constructor; eauto. Qed.
Lemma read_same_cell a1 h1 p1 a2 h2 p2 c v1 v2 : cell_read a1 h1 p1 c v1 -> cell_read a2 h2 p2 c v2 -> same_cell h1 h2 v1 v2.
Proof.
  destruct c as [x|o]; [cbn; intros -> ->; now left|]. intros (q1 & t1 & -> & _ & _ & N1 & C1 & R1 & _ & O1) (q2 & t2 & -> & _ & _ & N2 & C2 & R2 & _ & O2).
  right. exists q1, q2, t1, t2. repeat (split; [assumption || reflexivity|]). destruct o; [destruct O1, O2; split; congruence|split; congruence].
Qed.
Theorem C60_layout : forall s1 s2 n ds h1 h2, wf_heap h1 -> wf_heap h2 -> set_written (significant (lines s1)) n ds -> set_written (significant (lines s2)) n ds -> NoDup (map td_name ds) ->
  exists h1' ts1 h2' ts2, NewTableSetFromString s1 h1 = (h1', Ok ts1) /\ NewTableSetFromString s2 h2 = (h2', Ok ts2) /\
    ts_name ts1 = ts_name ts2 /\ Forall2 (same_table h1' h2') (ts_tables ts1) (ts_tables ts2).
Proof.
  intros s1 s2 n ds h1 h2 W1 W2 S1 S2 ND. destruct (C60_accepted s1 n ds h1 W1 S1 ND) as (h1' & ts1 & E1 & N1 & F1 & _).
  destruct (C60_accepted s2 n ds h2 W2 S2 ND) as (h2' & ts2 & E2 & N2 & F2 & _). exists h1', ts1, h2', ts2. split; [exact E1|]. split; [exact E2|]. split; [congruence|].
  eapply pair_up; [|exact F1|exact F2]. intros d o1 o2 (p1 & t1 & -> & _ & A1 & _ & A2 & A3 & A4 & A5 & A6) (p2 & t2 & -> & _ & B1 & _ & B2 & B3 & B4 & B5 & B6).
  exists p1, p2, t1, t2. repeat (split; [congruence|]). eapply pair_up; [|exact A6|exact B6]. intros r v1 v2 X Y. eapply pair_up; [|exact X|exact Y]. intros c a b. apply read_same_cell.
Qed.

(** The grammar is unambiguous: a text says one thing. *)
Definition plain (c : cell) : Prop := match c with Value (VTable _) => False | _ => True end.
Lemma cell_plain ct tok c : cell_written ct tok c -> plain c.
Proof. destruct 1; exact I. Qed.
Lemma row_plain cts l cs : row_written cts l cs -> Forall plain cs.
Proof. induction 1; constructor; eauto using cell_plain. Qed.
Lemma values_plain cns cts cs ls : values_written cns cts cs ls -> Forall plain cs.
Proof. induction 1; constructor; eauto using cell_plain. Qed.
Lemma set_plain L n ds : set_written L n ds -> Forall (fun d => Forall (Forall plain) (td_rows d)) ds /\ n <> Some "".
Proof.
  induction 1 as [|ls n ds W [IH N]|x ls ds P W [IH N]|d body ls n ds O B E W [IH N]]; auto.
  - split; [constructor|discriminate].
  - split; [exact IH|]. intros [= ->]. destruct P as [P _]. apply valid_name_bytes in P as [P _]. congruence.
  - split; [|exact N]. constructor; [|exact IH]. destruct B as [E1 E2 E3|names types rs E1 W1 W2 W3|rs E1 E2 E3 W1|row rs E1 E2 E3 W1].
    + rewrite E2. constructor.
    + clear - W3. induction W3; constructor; eauto using row_plain.
    + rewrite E2. constructor.
    + rewrite E2. constructor; [eapply values_plain; eauto|constructor].
Qed.
Lemma same_values {A B} (P : A -> B -> Prop) (G : A -> Prop) : (forall a b v, G a -> G b -> P a v -> P b v -> a = b) -> forall xs ys zs, Forall G xs -> Forall G ys -> Forall2 P xs zs -> Forall2 P ys zs -> xs = ys.
Proof. intros H xs ys zs Gx Gy F. revert ys Gy. induction F as [|x z xs zs p F IH]; intros ys Gy K; inversion K; subst; [reflexivity|]. inversion Gx; subst. inversion Gy; subst. f_equal; eauto. Qed.
Theorem C60_one_meaning : forall s n ds n' ds', set_written (significant (lines s)) n ds -> set_written (significant (lines s)) n' ds' -> NoDup (map td_name ds) -> NoDup (map td_name ds') ->
  n' = n /\ ds' = ds.
Proof.
  intros s n ds n' ds' S S' ND ND'. destruct (C60_accepted s n ds [] wf_heap_nil S ND) as (h & ts & E & N & F & _).
  destruct (C60_accepted s n' ds' [] wf_heap_nil S' ND') as (h2 & ts2 & E2 & N2 & F2 & _). rewrite E in E2. injection E2 as <- <-.
  destruct (set_plain _ _ _ S) as [G Z]. destruct (set_plain _ _ _ S') as [G' Z'].
  split.
  - rewrite N in N2. clear - N2 Z Z'. destruct n as [a|], n' as [b|]; cbn match in N2; [now rewrite N2|exfalso; apply Z; now rewrite N2|exfalso; apply Z'; now rewrite <- N2|reflexivity].
  - eapply (same_values (table_read [] h) (fun d => Forall (Forall plain) (td_rows d))); [|exact G'|exact G|exact F2|exact F].
    intros d d' o Gd Gd' (p & t & -> & _ & A0 & _ & A1 & A2 & A3 & A4 & A5) (p2 & t2 & Q & _ & B0 & _ & B1 & B2 & B3 & B4 & B5). injection Q as <-. rewrite A0 in B0. injection B0 as <-.
    destruct d as [a b c e f], d' as [a' b' c' e' f']. cbn in *. subst. f_equal.
    eapply (same_values (Forall2 (cell_read [] h p)) (Forall plain)); [|exact Gd|exact Gd'|exact A5|exact B5].
    intros r r' vs. apply same_values. intros x y v Px Py Cx Cy. destruct x as [x|x], y as [y|y]; cbn in Cx, Cy.
    + congruence.
    + exfalso. destruct Cy as (q & t' & -> & _). subst x. exact Px.
    + exfalso. destruct Cx as (q & t' & -> & _). subst y. exact Py.
    + destruct Cx as (q & t1 & -> & _ & _ & X1 & _ & _ & _ & X2). destruct Cy as (q2 & t2 & [= <-] & _ & _ & Y1 & _ & _ & _ & Y2). rewrite X1 in Y1. injection Y1 as <-.
      destruct x as [a|], y as [b|]; [destruct X2, Y2|destruct X2|destruct Y2|]; congruence.
Qed.

(** Two layouts of a table set that are not alike *)
Definition people : tdoc := mkTD "people" ["name"; "age"; "raw"] ["string"; "int"; "[]byte"]
  [[Value (VString ("A" ++ String (chr 9) "n")); Value (VInt KInt 31); Value (VBytes (Some [chr 1; chr 255]))];
   [Value (VString ""); Value (VInt KInt (-4)); Value (VBytes (Some []))]] false.
Definition point : tdoc := mkTD "point" ["x"; "sub"] ["float64"; "*Table"] [[Value (VFloat64 (S754_finite false 6755399441055744 (-52))); Place (Some "inner")]] true.
Definition none : tdoc := mkTD "none" [] [] [] false.
Definition say : list tdoc := [people; point; none].
Definition q1 : string := String dquote "".
Definition nl1 : string := String nl "".
Definition layout1 : string :=
  ("[[both]]" ++ nl1 ++ "[people]" ++ nl1 ++ "name age raw" ++ nl1 ++ "string int []byte" ++ nl1 ++ q1 ++ "A\tn" ++ q1 ++ " 31 [1 255]" ++ nl1 ++ q1 ++ q1 ++ " -4 []" ++ nl1 ++
   nl1 ++ "[point]" ++ nl1 ++ "x float64 = 1.5" ++ nl1 ++ "sub *Table = [inner]" ++ nl1 ++ nl1 ++ "[none]" ++ nl1)%string.
Definition layout2 : string :=
  ("# the people" ++ nl1 ++ nl1 ++ "  [people]" ++ nl1 ++ "# columns" ++ nl1 ++ "   name   age     raw" ++ nl1 ++ " string   int  []byte  " ++ nl1 ++
   "  " ++ q1 ++ "\x41\011n" ++ q1 ++ "  0x1f [01 0xFF]" ++ nl1 ++ "# the last" ++ nl1 ++ "     " ++ q1 ++ q1 ++ "   -4      []" ++ nl1 ++
   nl1 ++ nl1 ++ "[point]" ++ nl1 ++ "x   float64 = 1.5" ++ nl1 ++ "sub  *Table =  [inner]" ++ nl1 ++ nl1 ++ "[[both]]" ++ nl1 ++ "[none]" ++ nl1 ++ "# end")%string.
Lemma lines1 : significant (lines layout1) =
  ["[[both]]"; "[people]"; "name age raw"; "string int []byte"; """A\tn"" 31 [1 255]"; """"" -4 []"; ""; "[point]"; "x float64 = 1.5"; "sub *Table = [inner]"; ""; "[none]"; ""].
Proof. vm_compute. reflexivity. Qed.
Lemma lines2 : significant (lines layout2) =
  [""; "[people]"; "name   age     raw"; "string   int  []byte"; """\x41\011n""  0x1f [01 0xFF]"; """""   -4      []"; ""; ""; "[point]"; "x   float64 = 1.5"; "sub  *Table =  [inner]"; ""; "[[both]]"; "[none]"; ""].
Proof. vm_compute. reflexivity. Qed.
Ltac aw := split; [discriminate|]; apply every_all; reflexivity.
Ltac bl := apply every_all; reflexivity.
Ltac dg k := exists k; split; [reflexivity|]; split; [reflexivity|]; auto.
Ltac nm := apply IsValidColName_spec; vm_compute; reflexivity.
Ltac pn := split; [nm|]; repeat constructor.
Ltac nd := repeat constructor; cbn; intuition discriminate.
Lemma say_ok : Forall tdoc_ok say.
Proof.
  unfold say. apply Forall_cons; [|apply Forall_cons; [|apply Forall_cons; [|apply Forall_nil]]].
  - split; [pn|]. split; [apply Forall_cons; [nm|]; apply Forall_cons; [nm|]; apply Forall_cons; [nm|apply Forall_nil]|]. split; [nd|]. split; [|reflexivity].
    apply Forall_cons; [apply str_in_In; reflexivity|]. apply Forall_cons; [apply str_in_In; reflexivity|]. apply Forall_cons; [apply str_in_In; reflexivity|apply Forall_nil].
  - split; [pn|]. split; [apply Forall_cons; [nm|]; apply Forall_cons; [nm|apply Forall_nil]|]. split; [nd|]. split; [|reflexivity].
    apply Forall_cons; [apply str_in_In; reflexivity|]. apply Forall_cons; [apply str_in_In; reflexivity|apply Forall_nil].
  - split; [pn|]. split; [apply Forall_nil|]. split; [constructor|]. split; [apply Forall_nil|reflexivity].
Qed.
Lemma n31 : unsigned_literal "31" 31.
Proof. apply lit_dec; [|discriminate]. apply (num_more 10 "3" 3 "1" 1); [apply num_one|]; [dg 3|dg 1]. Qed.
Lemma n1f : unsigned_literal "0x1f" 31.
Proof. apply (lit_0x "0x" "1f"); [auto|]. apply (num_more 16 "1" 1 "f" 15); [apply num_one|]; [dg 1|dg 15]. Qed.
Lemma n1 : unsigned_literal "1" 1.
Proof. apply lit_dec; [|discriminate]. apply num_one. dg 1. Qed.
Lemma n01 : unsigned_literal "01" 1.
Proof. apply lit_octal. apply num_one. dg 1. Qed.
Lemma n255 : unsigned_literal "255" 255.
Proof. apply lit_dec; [|discriminate]. apply (num_more 10 "25" 25 "5" 5); [apply (num_more 10 "2" 2 "5" 5); [apply num_one|]|]; [dg 2|dg 5|dg 5]. Qed.
Lemma nFF : unsigned_literal "0xFF" 255.
Proof. apply (lit_0x "0x" "FF"); [auto|]. apply (num_more 16 "F" 15 "F" 15); [apply num_one|]; dg 15. Qed.
Lemma c31 tok : unsigned_literal tok 31 -> cell_written "int" tok (Value (VInt KInt 31)).
Proof. intros L. apply (cw_int "int" KInt); [reflexivity|now apply lit_unsigned|split; vm_compute; discriminate || reflexivity]. Qed.
Lemma c4 : cell_written "int" "-4" (Value (VInt KInt (-4))).
Proof. apply (cw_int "int" KInt); [reflexivity| |split; vm_compute; discriminate || reflexivity]. apply (lit_minus "4" 4). apply num_one. dg 4. Qed.
Lemma cslice a b : unsigned_literal a 1 -> unsigned_literal b 255 -> cell_written "[]byte" ("[" ++ a ++ " " ++ b ++ "]") (Value (VBytes (Some [chr 1; chr 255]))).
Proof.
  intros A B. apply (cw_bytes "[]byte" (a ++ " " ++ b ++ "]") [1; 255]%Z); [auto|]. apply (bn_more a 1 " " (b ++ "]") [255]%Z); [exact A|lia|reflexivity|]. apply bn_last; [exact B|lia].
Qed.
Lemma cs1 : cell_written "string" """A\tn""" (Value (VString ("A" ++ String (chr 9) "n"))).
Proof.
  apply (cw_string "A\tn"). apply (chs_cons dquote "A" 65 "A" "\tn" (String (chr 9) "n")); [apply (ch_ascii dquote "A"); [reflexivity|discriminate..]|].
  apply (chs_cons dquote "\t" 9 (String (chr 9) "") "n" "n"); [apply ch_letter; cbn; auto 10|].
  apply (chs_cons dquote "n" 110 "n" "" ""); [apply (ch_ascii dquote "n"); [reflexivity|discriminate..]|constructor].
Qed.
Lemma cs2 : cell_written "string" """\x41\011n""" (Value (VString ("A" ++ String (chr 9) "n"))).
Proof.
  apply (cw_string "\x41\011n"). apply (chs_cons dquote "\x41" 65 "A" "\011n" (String (chr 9) "n")).
  { apply (ch_hex dquote "41" 65); [|reflexivity]. apply (num_more 16 "4" 4 "1" 1); [apply num_one|]; [dg 4|dg 1]. }
  apply (chs_cons dquote "\011" 9 (String (chr 9) "") "n" "n").
  { apply (ch_octal dquote "011" 9); [|reflexivity|reflexivity]. apply (num_more 8 "01" 1 "1" 1); [apply (num_more 8 "0" 0 "1" 1); [apply num_one|]|]; [dg 0|dg 1|dg 1]. }
  apply (chs_cons dquote "n" 110 "n" "" ""); [apply (ch_ascii dquote "n"); [reflexivity|discriminate..]|constructor].
Qed.
Lemma cs0 : cell_written "string" """""" (Value (VString "")).
Proof. apply (cw_string ""). constructor. Qed.
Lemma cf : cell_written "float64" "1.5" (Value (VFloat64 (S754_finite false 6755399441055744 (-52)))).
Proof.
  apply (cw_float64 "1.5" false 3 2).
  - exists 15%Z, 1%Z, 0%Z. split; [|split; [split; reflexivity|left; reflexivity]]. exists "", "1.5", "". split; [reflexivity|]. split; [right; auto|]. split; [|constructor].
    apply (mag_point "1" "5" 15). apply (num_more 10 "1" 1 "5" 5); [apply num_one|]; [dg 1|dg 5].
  - apply (nearest_rounds F64 (or_intror eq_refl)); [discriminate|reflexivity|vm_compute; reflexivity].
Qed.
Lemma c_inner : cell_written "*Table" "[inner]" (Place (Some "inner")).
Proof. apply (cw_table "inner"). pn. Qed.
Lemma c_none : cell_written "[]byte" "[]" (Value (VBytes (Some []))).
Proof. apply cw_no_bytes. auto. Qed.

Lemma point_written a b c : blanks a -> a <> "" -> blanks b -> b <> "" -> blanks c -> c <> "" ->
  body_written point [("x" ++ a ++ "float64 = 1.5")%string; ("sub" ++ b ++ "*Table =" ++ c ++ "[inner]")%string].
Proof.
  intros A A' B B' C C'. eapply bw_values; [reflexivity|reflexivity|discriminate|]. 
  apply (va_line "x" "float64" _ a " " " " "1.5"); auto; try bl; try discriminate; [exact cf|].
  apply (va_line "sub" "*Table" _ b " " c "[inner]"); auto; try bl; try discriminate; [exact c_inner|constructor].
Qed.
Lemma written1 : set_written (significant (lines layout1)) (Some "both") say.
Proof.
  rewrite lines1. pose proof say_ok as O. unfold say in *. inversion O as [|? ? O1 O']; subst. inversion O' as [|? ? O2 O'']; subst. inversion O'' as [|? ? O3 _]; subst.
  apply (sw_name "both"); [pn|].
  apply (sw_table people ["name age raw"; "string int []byte"; """A\tn"" 31 [1 255]"; """"" -4 []"]); [exact O1| |right; eauto|].
  { apply bw_table; [reflexivity|..].
    - apply (words_more "name" " " _ "age raw"); [aw|bl|discriminate|]. apply (words_more "age" " " _ "raw"); [aw|bl|discriminate|]. apply words_one. aw.
    - apply (words_more "string" " " _ "int []byte"); [aw|bl|discriminate|]. apply (words_more "int" " " _ "[]byte"); [aw|bl|discriminate|]. apply words_one. aw.
    - apply Forall2_cons; [|apply Forall2_cons; [|apply Forall2_nil]].
      + apply (rw_more "string" """A\tn""" _ " " _ "31 [1 255]"); [exact cs1|bl|discriminate|]. apply (rw_more "int" "31" _ " " _ "[1 255]"); [apply c31, n31|bl|discriminate|].
        apply rw_one. exact (cslice "1" "255" n1 n255).
      + apply (rw_more "string" """""" _ " " _ "-4 []"); [exact cs0|bl|discriminate|]. apply (rw_more "int" "-4" _ " " _ "[]"); [exact c4|bl|discriminate|]. apply rw_one. exact c_none. }
  apply sw_blank. apply (sw_table point ["x float64 = 1.5"; "sub *Table = [inner]"]); [exact O2|apply (point_written " " " " " "); try bl; discriminate|right; eauto|].
  apply sw_blank. apply (sw_table none []); [exact O3|now constructor|right; eauto|]. apply sw_blank, sw_end.
Qed.
Lemma written2 : set_written (significant (lines layout2)) (Some "both") say.
Proof.
  rewrite lines2. pose proof say_ok as O. unfold say in *. inversion O as [|? ? O1 O']; subst. inversion O' as [|? ? O2 O'']; subst. inversion O'' as [|? ? O3 _]; subst.
  apply sw_blank. apply (sw_table people ["name   age     raw"; "string   int  []byte"; """\x41\011n""  0x1f [01 0xFF]"; """""   -4      []"]); [exact O1| |right; eauto|].
  { apply bw_table; [reflexivity|..].
    - apply (words_more "name" "   " _ "age     raw"); [aw|bl|discriminate|]. apply (words_more "age" "     " _ "raw"); [aw|bl|discriminate|]. apply words_one. aw.
    - apply (words_more "string" "   " _ "int  []byte"); [aw|bl|discriminate|]. apply (words_more "int" "  " _ "[]byte"); [aw|bl|discriminate|]. apply words_one. aw.
    - apply Forall2_cons; [|apply Forall2_cons; [|apply Forall2_nil]].
      + apply (rw_more "string" """\x41\011n""" _ "  " _ "0x1f [01 0xFF]"); [exact cs2|bl|discriminate|]. apply (rw_more "int" "0x1f" _ " " _ "[01 0xFF]"); [apply c31, n1f|bl|discriminate|].
        apply rw_one. exact (cslice "01" "0xFF" n01 nFF).
      + apply (rw_more "string" """""" _ "   " _ "-4      []"); [exact cs0|bl|discriminate|]. apply (rw_more "int" "-4" _ "      " _ "[]"); [exact c4|bl|discriminate|]. apply rw_one. exact c_none. }
  apply sw_blank, sw_blank. apply (sw_table point ["x   float64 = 1.5"; "sub  *Table =  [inner]"]); [exact O2|apply (point_written "   " "  " "  "); try bl; discriminate|right; eauto|].
  apply sw_blank. apply (sw_name "both"); [pn|]. apply (sw_table none []); [exact O3|now constructor|right; eauto|]. apply sw_blank, sw_end.
Qed.
Example C60_nonvacuous : set_written (significant (lines layout1)) (Some "both") say /\ set_written (significant (lines layout2)) (Some "both") say /\ layout1 <> layout2 /\
  NoDup (map td_name say) /\
  (exists h' ts, NewTableSetFromString layout2 [] = (h', Ok ts) /\ ts_name ts = "both" /\
     map (fun o => match o with Some p => (tname (tab h' p), cnames (tab h' p), List.length (rows (tab h' p))) | None => ("", [], 0) end) (ts_tables ts) =
       [("people", ["name"; "age"; "raw"], 2); ("point", ["x"; "sub"], 1); ("none", [], 0)]).
Proof.
  split; [exact written1|]. split; [exact written2|]. split; [vm_compute; discriminate|]. split; [nd|].
  eexists _, _. split; [vm_compute; reflexivity|]. vm_compute. split; reflexivity.
Qed.

(** Axioms used by any theorem of this file. *)
Definition all_Props_Grammar :=
  (@C60_accepted,
   @C60_one_table,
   @C60_by_name,
   @C60_by_index,
   @C60_layout,
   @C60_one_meaning).
Print Assumptions all_Props_Grammar.
