(** Proofs_Generate.v -- the generated texts are read as the programs they are meant to be. *)
From Coq Require Import ZArith NArith List String Ascii Bool SpecFloat Lia.
From Verif Require Import Base Model_Names Model_Table Model_Lex Model_Print Model_Copy Model_Generate Spec Proofs_Lib Proofs_Table.
From Verif Require Import Proofs_Lex Proofs_Document Proofs_Lines Proofs_Copy Proofs_Cells Spec_Generate.
Import ListNotations.
Local Open Scope string_scope.
Local Open Scope list_scope.
Local Notation "a +++ b" := (String.append a b) (at level 60, right associativity).

(** ---------- scanning ---------- *)

Lemma append_eq c a b : String.append (String c a) b = String c (String.append a b). Proof. reflexivity. Qed.
Definition ends (s : string) : Prop := match s with EmptyString => True | String c _ => is_word c = false end.
Lemma word_app w s : all_c is_word w = true -> ends s -> word (w +++ s) = (w, s).
Proof.
  induction w as [|c w IH]; cbn [all_c append word]; intros A E.
  - destruct s as [|c s]; [reflexivity|]. cbn [word]. cbn [ends] in E. now rewrite E.
  - apply andb_true_iff in A as [-> A]. now rewrite (IH A E).
Qed.
Lemma forallb_all_c f s : forallb f (list_ascii_of_string s) = all_c f s.
Proof. induction s as [|c s IH]; [reflexivity|]. cbn. now rewrite IH. Qed.
Lemma ident_word w : identifier w = true -> all_c is_word w = true.
Proof.
  destruct w as [|c w]; cbn [identifier]; [discriminate|]. rewrite forallb_all_c, !andb_true_iff. intros [[A B] _]. cbn [all_c]. rewrite B.
  unfold is_word. now rewrite A.
Qed.
Lemma scan_T l r s : scan (T l :: r) (l +++ s) = scan r s.
Proof. cbn [scan]. now rewrite prefix_app, drop_app. Qed.
Lemma scan_T0 l : scan [T l] l = Some [].
Proof. cbn [scan]. rewrite <- (app_str_nil_r l) at 2. rewrite prefix_app, drop_all. reflexivity. Qed.
Lemma scan_Name w r s : identifier w = true -> ends s -> scan (Name :: r) (w +++ s) = option_map (cons w) (scan r s).
Proof. intros I E. cbn [scan]. rewrite word_app by (auto using ident_word). now rewrite I. Qed.
Lemma scan_Name0 w r : identifier w = true -> scan (Name :: r) w = option_map (cons w) (scan r "").
Proof. intros I. rewrite <- (app_str_nil_r w) at 1. apply scan_Name; [exact I|exact Logic.I]. Qed.
Definition no_escape (w : string) : Prop := has dquote w = false /\ has bslash w = false.
Lemma literal_app w s : no_escape w -> literal (quoted w +++ s) = Some (w, s).
Proof.
  intros [D B]. unfold literal, quoted. cbn [append]. rewrite Ascii.eqb_refl, app_str_assoc. cbn [append]. rewrite until_plain by exact D. now rewrite B.
Qed.
Lemma scan_Literal w r s : no_escape w -> scan (Literal :: r) (quoted w +++ s) = option_map (cons w) (scan r s).
Proof. intros N. cbn [scan]. now rewrite literal_app. Qed.
Lemma scan_Literal0 w r : no_escape w -> scan (Literal :: r) (quoted w) = option_map (cons w) (scan r "").
Proof. intros N. rewrite <- (app_str_nil_r (quoted w)). now apply scan_Literal. Qed.

Lemma word_char (P : ascii -> bool) : forallb (fun n => let c := ascii_of_nat n in implb (is_word c) (P c)) (seq 0 256) = true ->
  forall w, all_c is_word w = true -> all_c P w = true.
Proof.
  intros H w. apply all_c_impl. intros c W. rewrite forallb_forall in H. specialize (H (nat_of_ascii c)).
  rewrite ascii_nat_embedding in H. cbv zeta in H. rewrite W in H. cbn [implb] in H. apply H. apply in_seq. pose proof (nat_ascii_bounded c). lia.
Qed.
Lemma word_has c w : is_word c = false -> all_c is_word w = true -> has c w = false.
Proof.
  intros N W. rewrite has_all_c. rewrite negb_false_iff. revert W. apply all_c_impl. intros d D. destruct (Ascii.eqb_spec c d); [congruence|reflexivity].
Qed.
Lemma ident_has c w : is_word c = false -> identifier w = true -> has c w = false.
Proof. intros N I. apply word_has; auto using ident_word. Qed.
Lemma ident_no_escape w : identifier w = true -> no_escape w.
Proof. intros I. split; now apply ident_has. Qed.

(** ---------- %q ---------- *)

Definition printable (c : ascii) : bool := Model_Lex.between 32 126 c && negb (Ascii.eqb c dquote) && negb (Ascii.eqb c bslash).
Lemma quote_printable1 ip c s : printable c = true -> decode (String c s) = Some (code c, 1) /\ (code c =? RuneError)%Z = false /\ escape_rune ip dquote (code c) = String c "".
Proof.
  unfold printable. rewrite !andb_true_iff, !negb_true_iff. intros [[B D] S0].
  assert (R : (32 <= code c <= 126)%Z). { unfold Model_Lex.between in B. rewrite andb_true_iff in B. destruct B as [B1 B2]. apply Z.leb_le in B1, B2. unfold code in *. lia. }
  split; [|split].
  - cbn [decode]. destruct (Z.ltb_spec (code c) 128); [reflexivity|lia].
  - apply Z.eqb_neq. unfold RuneError. lia.
  - unfold escape_rune. rewrite code_dquote.
    assert (N1 : (code c =? 34)%Z = false). { apply Z.eqb_neq. intros E. apply Ascii.eqb_neq in D. apply D. rewrite <- (chr_code c), E. reflexivity. }
    assert (N2 : (code c =? 92)%Z = false). { apply Z.eqb_neq. intros E. apply Ascii.eqb_neq in S0. apply S0. rewrite <- (chr_code c), E. reflexivity. }
    rewrite N1, N2. cbn [orb]. unfold is_print. destruct (Z.ltb_spec (code c) 128); [|lia].
    replace ((32 <=? code c)%Z && (code c <=? 126)%Z) with true by (symmetry; apply andb_true_iff; split; apply Z.leb_le; lia).
    rewrite encode_ascii by lia. now rewrite chr_code.
Qed.
Lemma Quote_printable ip w : all_c printable w = true -> Quote ip w = quoted w.
Proof.
  intros A. unfold Quote, quoted. f_equal. f_equal. revert A. induction w as [|c w IH]; intros A; [reflexivity|].
  cbn [all_c] in A. apply andb_true_iff in A as [P A]. destruct (quote_printable1 ip c w P) as (D & R & E).
  change (String.length (String c w)) with (S (String.length w)). rewrite quote_from_eq, D. unfold quoted1. rewrite R, andb_false_r, E.
  cbn [append drop]. now rewrite (IH A).
Qed.
Lemma ident_printable w : identifier w = true -> all_c printable w = true.
Proof. intros I. apply (word_char printable); [vm_compute; reflexivity|now apply ident_word]. Qed.
Lemma Quote_ident ip w : identifier w = true -> Quote ip w = quoted w.
Proof. intros I. now apply Quote_printable, ident_printable. Qed.

(** ---------- the text and its lines ---------- *)

Lemma out_text ls : out ls = text_of ls.
Proof. unfold out. induction ls as [|l ls IH]; [reflexivity|]. cbn [map text_of]. rewrite <- IH. destruct (map _ ls) eqn:E; cbn [String.concat]; rewrite ?app_str_assoc; reflexivity. Qed.
Lemma lines_out ls : Forall (fun l => has nl l = false) ls -> whole_lines (out ls) = Some ls.
Proof.
  intros F. unfold whole_lines. rewrite out_text. rewrite <- (app_str_nil_r (text_of ls)). rewrite lines_text by exact F. cbn [lines].
  rewrite rev_app_distr. cbn. now rewrite rev_involutive.
Qed.
Lemma out_app a b : out (a ++ b) = out a +++ out b.
Proof. rewrite !out_text. induction a as [|x a IH]; [reflexivity|]. cbn [text_of List.app]. rewrite IH, !app_str_assoc. reflexivity. Qed.
Lemma after_comment_app a r : has "/" a = false -> after_comment (a +++ "*/" +++ r) = Some r.
Proof.
  induction a as [|c a IH]; intros H; [cbn [append after_comment]; destruct r; reflexivity|]. unfold has in H. cbn [list_ascii_of_string existsb] in H. apply orb_false_iff in H as [C H].
  change (String c a +++ "*/" +++ r) with (String c (a +++ "*/" +++ r)). cbn [after_comment].
  replace (String.prefix "*/" (String c (a +++ "*/" +++ r))) with false; [now apply IH|].
  symmetry. apply prefix_false. intros x E. injection E as -> E. destruct a as [|d a]; cbn [append] in E; injection E as E _; [discriminate|]. subst d.
  unfold has in H. cbn [list_ascii_of_string existsb] in H. now rewrite Ascii.eqb_refl in H.
Qed.
Lemma source_out now what ls : has "/" now = false -> has "/" what = false ->
  Forall (fun l => has nl l = false) ls -> source (out (comment now what ++ ls)) = Some ls.
Proof.
  intros N W F. rewrite out_app. unfold source.
  assert (E : out (comment now what) +++ out ls = "/*" +++ ((newline +++ (tb +++ "Automatically generated source code. DO NOT MODIFY. Generated " +++ now +++ ".") +++ newline +++ newline +++ (tb +++ what) +++ newline) +++ "*/" +++ (newline +++ out ls))).
  { rewrite !out_text. unfold comment. cbn [text_of]. rewrite !app_str_assoc. cbn [append]. reflexivity. }
  rewrite E. rewrite prefix_app. change 2 with (String.length "/*"). rewrite drop_app. rewrite after_comment_app.
  - unfold newline at 1. cbn [append]. rewrite Ascii.eqb_refl. now rewrite lines_out.
  - rewrite !has_app, N, W. reflexivity.
Qed.

(** ---------- the columns ---------- *)

Lemma rmap_of_nth {A B} (f : A -> res B) l ys : List.length ys = List.length l ->
  (forall i x, nth_error l i = Some x -> exists y, nth_error ys i = Some y /\ f x = Ok y) -> rmap f l = Ok ys.
Proof.
  revert ys. induction l as [|x l IH]; intros [|y ys] L H; try discriminate; [reflexivity|]. cbn [rmap].
  destruct (H 0 x eq_refl) as (y' & [= <-] & ->). cbn [rbind]. rewrite (IH ys); [reflexivity|now injection L|]. intros i z Z. exact (H (S i) z Z).
Qed.
Definition cols (t : table) : list (string * string) := combine (cnames t) (ctypes t).
Lemma cols_nth t i cn ct : wf_table t -> nth_error (cols t) i = Some (cn, ct) <-> nth_error (cnames t) i = Some cn /\ nth_error (ctypes t) i = Some ct.
Proof.
  intros W. unfold cols. rewrite nth_error_combine. destruct (nth_error (cnames t) i), (nth_error (ctypes t) i); split; intros H; try discriminate; try (destruct H; discriminate).
  - injection H as -> ->. auto.
  - destruct H as [[= ->] [= ->]]. reflexivity.
Qed.
Lemma cols_length t : wf_table t -> List.length (cols t) = List.length (cnames t).
Proof. intros W. unfold cols. rewrite combine_length, (wf_types_len _ W). lia. Qed.
Lemma cols_names t : wf_table t -> map fst (cols t) = cnames t.
Proof. intros W. unfold cols. pose proof (wf_types_len _ W) as L. revert L. generalize (ctypes t). induction (cnames t) as [|c l IH]; intros [|d m] L; try discriminate; [reflexivity|]. cbn. now rewrite IH by (now injection L). Qed.
Lemma cols_types t : wf_table t -> map snd (cols t) = ctypes t.
Proof. intros W. unfold cols. pose proof (wf_types_len _ W) as L. revert L. generalize (ctypes t). induction (cnames t) as [|c l IH]; intros [|d m] L; try discriminate; [reflexivity|]. cbn. now rewrite IH by (now injection L). Qed.
Lemma each_column_eq t f : wf_table t -> each_column t f = Ok (map (fun p => f (fst p) (snd p)) (cols t)).
Proof.
  intros W. unfold each_column. apply rmap_of_nth.
  - rewrite map_length, zseq_length. now apply cols_length.
  - intros i z Z. rewrite nth_error_zseq in Z. destruct (Nat.ltb_spec i (List.length (cnames t))) as [L|]; [|discriminate]. injection Z as <-.
    destruct (nth_error_lt (cnames t) i L) as [cn CN]. rewrite <- (wf_types_len _ W) in L. destruct (nth_error_lt (ctypes t) i L) as [ct CT]. rewrite (wf_types_len _ W) in L.
    exists (f cn ct). split.
    + rewrite nth_error_map. replace (nth_error (cols t) i) with (Some (cn, ct)) by (symmetry; now apply cols_nth). reflexivity.
    + unfold ColName, ColCount. replace ((Z.of_nat i <? 0) || (Z.of_nat i >? Z.of_nat (List.length (cnames t)) - 1))%Z with false
        by (symmetry; apply orb_false_iff; split; [apply Z.ltb_ge|rewrite Z.gtb_ltb; apply Z.ltb_ge]; lia).
      rewrite znth_of_nat, CN. cbn [rbind]. unfold ColTypeByColIndex. rewrite (wf_types_len _ W).
      replace ((Z.of_nat i <? 0) || (Z.of_nat i >? Z.of_nat (List.length (cnames t)) - 1))%Z with false
        by (symmetry; apply orb_false_iff; split; [apply Z.ltb_ge|rewrite Z.gtb_ltb; apply Z.ltb_ge]; lia).
      rewrite znth_of_nat, CT. reflexivity.
Qed.

(** what a proof needs to know of a column *)
Definition col_ok (p : string * string) : Prop := identifier (fst p) = true /\ In (snd p) all_types.
Lemma cols_in t p : wf_table t -> In p (cols t) -> In (fst p) (cnames t) /\ In (snd p) (ctypes t) /\ In (snd p) all_types.
Proof.
  intros W I. pose proof (in_combine_l (cnames t) (ctypes t) (fst p) (snd p)) as A. pose proof (in_combine_r (cnames t) (ctypes t) (fst p) (snd p)) as B.
  rewrite <- surjective_pairing in A, B. split; [auto|]. split; [auto|]. pose proof (wf_types _ W) as F. rewrite Forall_forall in F. auto.
Qed.

(** ---------- the struct type ---------- *)

Lemma type_no_nl ct : In ct all_types -> has nl ct = false /\ has "/" ct = false.
Proof. intros I. types I; split; reflexivity. Qed.
Lemma read_fields_eq ps : Forall col_ok ps -> read_fields (map (fun p => tb +++ fst p +++ " " +++ snd p) ps ++ ["}"]) = Some ps.
Proof.
  induction 1 as [|[cn ct] ps [I TY] F IH]; [reflexivity|]. cbn [fst snd] in *. cbn [map List.app read_fields].
  change (tb +++ fst (cn, ct) +++ " " +++ snd (cn, ct) =? "}") with false. cbv iota. cbn [fst snd].
  change tb with t1. rewrite scan_T, scan_Name by (auto; reflexivity). rewrite scan_T. cbn [scan option_map]. change t1 with tb. rewrite IH. reflexivity.
Qed.
Lemma concat_single {A B} (f : A -> B) l : List.concat (map (fun x => [f x]) l) = map f l.
Proof. induction l as [|x l IH]; [reflexivity|]. cbn. now rewrite IH. Qed.
Lemma no_slash_name w : identifier w = true -> has "/" w = false. Proof. now apply ident_has. Qed.
Lemma no_nl_name w : identifier w = true -> has nl w = false. Proof. now apply ident_has. Qed.

Theorem type_struct now t : has "/" now = false -> wf_table t -> identifier (tname t) = true -> Forall (fun cn => identifier cn = true) (cnames t) ->
  exists s, GenerateTypeStruct now t = Ok s /\ read_decl s = Some (mkDecl (tname t) (cols t)).
Proof.
  intros N W I F. unfold GenerateTypeStruct. rewrite each_column_eq by exact W. cbn [rbind]. eexists. split; [reflexivity|]. rewrite concat_single.
  assert (CO : Forall col_ok (cols t)).
  { apply Forall_forall. intros p P. destruct (cols_in t p W P) as (A & _ & B). rewrite Forall_forall in F. split; auto. }
  unfold read_decl. rewrite source_out; [|exact N| |].
  - cbn [List.app]. rewrite scan_T, scan_Name by (auto; reflexivity). rewrite scan_T0. cbn [option_map]. rewrite read_fields_eq by exact CO. reflexivity.
  - rewrite !has_app, (no_slash_name _ I). reflexivity.
  - cbn [List.app]. constructor; [rewrite !has_app, (no_nl_name _ I); reflexivity|]. apply Forall_app. split; [|constructor; [reflexivity|constructor]].
    apply Forall_forall. intros l L. apply in_map_iff in L as (p & <- & P). rewrite Forall_forall in CO. destruct (CO p P) as [A B].
    rewrite !has_app, (no_nl_name _ A), (proj1 (type_no_nl _ B)). reflexivity.
Qed.

(** ---------- the names of the accessors ---------- *)

Lemma accessor_ok ct : In ct all_types -> go_column ct ->
  identifier (getterName ct) = true /\ identifier (setterName ct) = true /\ method "Get" (getterName ct) = Some ct /\ method "Set" (setterName ct) = Some ct.
Proof. intros I [N1 N2]. types I; try contradiction; now vm_compute. Qed.

(** ---------- statements ---------- *)

Definition get_line (cn m : string) : string := tb +++ tb +++ cn +++ ", err := table." +++ m +++ "(" +++ quoted cn +++ ", rowIndex)".
Definition store_line (n cn : string) : string := tb +++ tb +++ n +++ "[rowIndex]." +++ cn +++ " = " +++ cn.
Definition set_line (cn m : string) : string := tb +++ tb +++ "err = table." +++ m +++ "(" +++ quoted cn +++ ", rowIndex, slice[rowIndex]." +++ cn +++ ")".

Lemma two_tabs s : tb +++ tb +++ s = t2 +++ s. Proof. reflexivity. Qed.
Lemma word_prefix p s w x y : all_c is_word w = true -> ends s -> word p = (x, y) -> (exists c z, y = String c z /\ is_word c = false) ->
  String.prefix p (w +++ s) = true -> w = x /\ String.prefix y s = true.
Proof.
  intros A E P (c & z & -> & C) H. apply prefix_spec in H as [u H]. pose proof (word_app w s A E) as R.
  assert (Q : word (p +++ u) = (x, String c z +++ u)).
  { clear -P C. revert x P. induction p as [|d p IH]; intros x P; cbn [word] in P; [discriminate|]. cbn [append word].
    destruct (is_word d) eqn:D.
    - destruct (word p) as [a b] eqn:WP. injection P as <- ->. rewrite (IH a eq_refl). reflexivity.
    - injection P as <- -> ->. reflexivity. }
  rewrite H in R. rewrite R in Q. injection Q as -> ->. split; [reflexivity|]. apply (prefix_app (String c z)).
Qed.
Lemma prefix_t2 p s : String.prefix (t2 +++ p) (t2 +++ s) = String.prefix p s.
Proof. change t2 with (String (chr 9) (String (chr 9) "")). cbn [append String.prefix]. destruct (ascii_dec (chr 9) (chr 9)); [reflexivity|contradiction]. Qed.
Lemma prefix_self_eq s p : s = p -> String.prefix p s = true.
Proof. intros ->. rewrite <- (app_str_nil_r p) at 2. apply prefix_app. Qed.
(** a line that begins with a name is none of the fixed lines that begin otherwise *)
Lemma not_fixed w s p x y : all_c is_word w = true -> ends s -> word p = (x, y) -> (exists c z, y = String c z /\ is_word c = false) -> String.prefix y s = false ->
  String.prefix (t2 +++ p) (t2 +++ w +++ s) = false /\ (t2 +++ w +++ s =? t2 +++ p) = false.
Proof.
  intros A E P Y N. assert (Q : String.prefix (t2 +++ p) (t2 +++ w +++ s) = false).
  { rewrite prefix_t2. destruct (String.prefix p (w +++ s)) eqn:H; [|reflexivity]. destruct (word_prefix _ _ _ _ _ A E P Y H). congruence. }
  split; [exact Q|]. apply String.eqb_neq. intros H. apply prefix_self_eq in H. congruence.
Qed.
Ltac fixed := first [reflexivity | (eexists; eexists; split; reflexivity)].
Lemma scan_T_false l r s : String.prefix l s = false -> scan (T l :: r) s = None.
Proof. intros H. cbn [scan]. now rewrite H. Qed.

Lemma read_get cn m : identifier cn = true -> identifier m = true -> read_stmt (get_line cn m) = Some (SGet cn m cn).
Proof.
  intros I M. pose proof (ident_word _ I) as IW. unfold get_line. rewrite two_tabs. unfold read_stmt.
  set (s := ", err := table." +++ m +++ "(" +++ quoted cn +++ ", rowIndex)").
  assert (E : ends s) by reflexivity.
  rewrite (proj2 (not_fixed cn s "err = table.AppendRow()" "err" _ IW E ltac:(reflexivity) ltac:(fixed) ltac:(reflexivity))).
  rewrite (scan_T_false _ _ _ (proj1 (not_fixed cn s "err = table." "err" _ IW E ltac:(reflexivity) ltac:(fixed) ltac:(reflexivity)))).
  rewrite scan_T, scan_Name by auto. unfold s. rewrite scan_T, scan_Name by (auto; reflexivity). rewrite scan_T, scan_Literal by (now apply ident_no_escape).
  rewrite scan_T0. reflexivity.
Qed.
Lemma read_store n cn : identifier n = true -> identifier cn = true -> read_stmt (store_line n cn) = Some (SStore n cn cn).
Proof.
  intros I M. pose proof (ident_word _ I) as IW. unfold store_line. rewrite two_tabs. unfold read_stmt.
  set (s := "[rowIndex]." +++ cn +++ " = " +++ cn).
  assert (E : ends s) by reflexivity.
  rewrite (proj2 (not_fixed n s "err = table.AppendRow()" "err" _ IW E ltac:(reflexivity) ltac:(fixed) ltac:(reflexivity))).
  rewrite (scan_T_false _ _ _ (proj1 (not_fixed n s "err = table." "err" _ IW E ltac:(reflexivity) ltac:(fixed) ltac:(reflexivity)))).
  rewrite !scan_T, !scan_Name by auto. unfold s. rewrite (scan_T_false ", err := table.") by reflexivity. cbn [option_map].
  rewrite scan_T, scan_Name by (auto; reflexivity). rewrite scan_T, scan_Name0 by exact M. reflexivity.
Qed.
Lemma read_set cn m : identifier cn = true -> identifier m = true -> m <> "AppendRow" -> read_stmt (set_line cn m) = Some (SSet m cn cn).
Proof.
  intros I M NA. unfold set_line. rewrite two_tabs. unfold read_stmt.
  set (s := "(" +++ quoted cn +++ ", rowIndex, slice[rowIndex]." +++ cn +++ ")").
  assert (Q : (t2 +++ "err = table." +++ m +++ s =? t2 +++ "err = table.AppendRow()") = false).
  { apply String.eqb_neq. intros H. apply NA.
    change (t2 +++ "err = table.AppendRow()") with ((t2 +++ "err = table.") +++ "AppendRow()") in H.
    apply (f_equal (drop (String.length (t2 +++ "err = table.")))) in H. rewrite <- app_str_assoc in H. rewrite !drop_app in H.
    apply (f_equal word) in H. rewrite word_app in H by (try reflexivity; now apply ident_word). change (word "AppendRow()") with ("AppendRow", "()") in H. congruence. }
  rewrite Q. rewrite <- app_str_assoc. rewrite scan_T, scan_Name by (auto; reflexivity). unfold s. rewrite scan_T, scan_Literal by (now apply ident_no_escape).
  rewrite scan_T, scan_Name by (auto; reflexivity). rewrite scan_T0. reflexivity.
Qed.

(** ---------- the loop body ---------- *)

Definition before (ss : list stmt) (o : option (list stmt * list string)) : option (list stmt * list string) :=
  match o with Some (b, e) => Some (ss ++ b, e) | None => None end.
Lemma read_body_stmt l s r : (l =? t1 +++ "}") = false -> (l =? "") = false -> (l =? t2 +++ "if err != nil {") = false -> read_stmt l = Some s ->
  read_body (l :: r) = before [s] (read_body r).
Proof. intros A B C D. cbn [read_body]. rewrite A, B, C, D. reflexivity. Qed.
Lemma read_body_check r : read_body (if_err (tb +++ tb) ++ r) = before [SCheck] (read_body r).
Proof. reflexivity. Qed.
Lemma read_body_blank r : read_body ("" :: r) = read_body r.
Proof. reflexivity. Qed.
Lemma before_before a b o : before a (before b o) = before (a ++ b) o.
Proof. destruct o as [[x y]|]; cbn; [now rewrite app_assoc|reflexivity]. Qed.
Lemma get_line_fixed cn m : identifier cn = true -> (get_line cn m =? t1 +++ "}") = false /\ (get_line cn m =? "") = false /\ (get_line cn m =? t2 +++ "if err != nil {") = false.
Proof.
  intros I. split; [reflexivity|]. split; [reflexivity|]. unfold get_line. rewrite two_tabs. apply ident_word in I.
  match goal with |- (_ +++ _ +++ ?s =? _) = false => exact (proj2 (not_fixed cn s "if err != nil {" "if" _ I ltac:(reflexivity) ltac:(reflexivity) ltac:(fixed) ltac:(reflexivity))) end.
Qed.
Lemma store_line_fixed n cn : identifier n = true -> (store_line n cn =? t1 +++ "}") = false /\ (store_line n cn =? "") = false /\ (store_line n cn =? t2 +++ "if err != nil {") = false.
Proof.
  intros I. split; [reflexivity|]. split; [reflexivity|]. unfold store_line. rewrite two_tabs. apply ident_word in I.
  match goal with |- (_ +++ _ +++ ?s =? _) = false => exact (proj2 (not_fixed n s "if err != nil {" "if" _ I ltac:(reflexivity) ltac:(reflexivity) ltac:(fixed) ltac:(reflexivity))) end.
Qed.
Lemma read_separated {A} (g : A -> list string) (ss : A -> list stmt) ps e :
  (forall p r, In p ps -> read_body (g p ++ r) = before (ss p) (read_body r)) ->
  read_body (separated (map g ps) ++ (tb +++ "}") :: e) = Some (flat_map ss ps, e).
Proof.
  intros H. induction ps as [|p ps IH]; [reflexivity|]. destruct ps as [|q ps].
  - cbn [map separated flat_map]. rewrite H by now left. rewrite app_nil_r. cbn. rewrite app_nil_r. reflexivity.
  - change (separated (map g (p :: q :: ps))) with (g p ++ "" :: separated (map g (q :: ps))).
    rewrite <- app_assoc. rewrite H by now left. change (("" :: separated (map g (q :: ps))) ++ (tb +++ "}") :: e) with ("" :: (separated (map g (q :: ps)) ++ (tb +++ "}") :: e)).
    rewrite read_body_blank, IH; [reflexivity|]. intros p' r I. apply H. now right.
Qed.

(** ---------- the function that reads a table ---------- *)

Definition from_stmts (n : string) (p : string * string) : list stmt := [SGet (fst p) (getterName (snd p)) (fst p); SCheck; SStore n (fst p) (fst p)].
Definition from_of (t : table) : from_func :=
  mkFrom ("TypeStructSliceFromTable_" +++ tname t) (tname t) (tname t) (tname t) (tname t) (flat_map (from_stmts (tname t)) (cols t)) (tname t).

Lemma from_group n p r : identifier n = true -> col_ok p -> go_column (snd p) ->
  read_body (([get_line (fst p) (getterName (snd p))] ++ if_err (tb +++ tb) ++ [store_line n (fst p)]) ++ r) = before (from_stmts n p) (read_body r).
Proof.
  intros N [C TY] G. destruct (accessor_ok _ TY G) as (A & _). rewrite <- !app_assoc.
  destruct (get_line_fixed (fst p) (getterName (snd p)) C) as (G1 & G2 & G3). destruct (store_line_fixed n (fst p) N) as (S1 & S2 & S3).
  change ([get_line (fst p) (getterName (snd p))] ++ if_err (tb +++ tb) ++ [store_line n (fst p)] ++ r) with
    (get_line (fst p) (getterName (snd p)) :: (if_err (tb +++ tb) ++ store_line n (fst p) :: r)).
  rewrite (read_body_stmt _ _ _ G1 G2 G3 (read_get _ _ C A)). rewrite read_body_check. rewrite (read_body_stmt _ _ _ S1 S2 S3 (read_store _ _ N C)).
  rewrite !before_before. reflexivity.
Qed.
Lemma ident_prefix w n : identifier w = true -> identifier n = true -> str_in (w +++ n) keywords = false -> identifier (w +++ n) = true.
Proof.
  intros I N K. destruct w as [|c w]; [discriminate|]. cbn [identifier append] in *. rewrite forallb_all_c, all_c_app in *. rewrite !andb_true_iff in *.
  destruct I as [[A B] _]. split; [split; [exact A|split; [exact B|now apply ident_word]]|]. cbn [append] in K. now rewrite K.
Qed.
Lemma not_keyword w n : forallb (fun k => negb (String.prefix w k)) keywords = true -> str_in (w +++ n) keywords = false.
Proof.
  intros H. unfold str_in. destruct (existsb (String.eqb (w +++ n)) keywords) eqn:E; [|reflexivity]. apply existsb_exists in E as (k & I & E). apply String.eqb_eq in E. subst k.
  rewrite forallb_forall in H. specialize (H _ I). rewrite prefix_app in H. discriminate.
Qed.
Lemma quoted_nl w : has nl (quoted w) = has nl w.
Proof. unfold quoted, has. change (list_ascii_of_string (String dquote (w +++ String dquote ""))) with (dquote :: list_ascii_of_string (w +++ String dquote "")). cbn [existsb]. change (Ascii.eqb nl dquote) with false. rewrite orb_false_l. change (has nl (w +++ String dquote "") = has nl w). rewrite has_app. change (has nl (String dquote "")) with false. apply orb_false_r. Qed.
Lemma err_text_plain fn n : identifier fn = true -> identifier n = true -> no_escape (fn +++ "(slice []" +++ n +++ ") slice is <nil>") /\ has nl (fn +++ "(slice []" +++ n +++ ") slice is <nil>") = false.
Proof. intros F N. unfold no_escape. rewrite !has_app, !(ident_has _ fn), !(ident_has _ n) by (auto; reflexivity). auto. Qed.
Lemma separated_no_nl gs : Forall (Forall (fun l => has nl l = false)) gs -> Forall (fun l => has nl l = false) (separated gs).
Proof.
  induction 1 as [|g gs G F IH]; [constructor|]. destruct gs as [|g' gs]; [exact G|]. change (separated (g :: g' :: gs)) with (g ++ "" :: separated (g' :: gs)).
  apply Forall_app. split; [exact G|]. constructor; [reflexivity|exact IH].
Qed.

Theorem from_text ip now t : has "/" now = false -> wf_table t -> identifier (tname t) = true -> Forall (fun cn => identifier cn = true) (cnames t) -> Forall go_column (ctypes t) ->
  exists s, GenerateTypeStructSliceFromTable ip now t = Ok s /\ read_from s = Some (from_of t).
Proof.
  intros N W I F G. unfold GenerateTypeStructSliceFromTable. rewrite each_column_eq by exact W. cbn [rbind]. eexists. split; [reflexivity|].
  set (n := tname t) in *. set (fn := "TypeStructSliceFromTable_" +++ n).
  assert (FI : identifier fn = true) by (apply ident_prefix; [reflexivity|exact I|apply not_keyword; reflexivity]).
  destruct (err_text_plain fn n FI I) as [EP EN].
  assert (CO : forall p, In p (cols t) -> col_ok p /\ go_column (snd p)).
  { intros p P. destruct (cols_in t p W P) as (A & B & C). rewrite Forall_forall in F, G. split; [split|]; auto. }
  set (g := fun p : string * string => [get_line (fst p) (getterName (snd p))] ++ if_err (tb +++ tb) ++ [store_line n (fst p)]).
  replace (map _ (cols t)) with (map g (cols t)).
  2:{ apply map_ext_in. intros p P. unfold g, get_line. destruct (CO p P) as [[C _] _]. rewrite (Quote_ident ip _ C). reflexivity. }
  unfold read_from. rewrite source_out; [|exact N| |].
  - cbn [List.app].
    rewrite scan_T, scan_Name by (auto; reflexivity). rewrite scan_T, scan_Name by (auto; reflexivity). rewrite scan_T0. cbn [option_map].
    change (scan [T (t1 +++ "if table == nil {")] (tb +++ "if table == nil {")) with (Some (@nil string)).
    change (tb +++ tb +++ "return nil, fmt.Errorf(" +++ quoted (fn +++ "(slice []" +++ n +++ ") slice is <nil>") +++ ")") with
      ((t2 +++ "return nil, fmt.Errorf(") +++ quoted (fn +++ "(slice []" +++ n +++ ") slice is <nil>") +++ ")").
    rewrite scan_T, (scan_Literal _ _ _ EP), scan_T0. cbn [option_map].
    change (scan [T (t1 +++ "}")] (tb +++ "}")) with (Some (@nil string)). change (scan [] "") with (Some (@nil string)).
    change (tb +++ "var " +++ n +++ " []" +++ n +++ " = make([]" +++ n +++ ", table.RowCount())") with ((t1 +++ "var ") +++ n +++ " []" +++ n +++ " = make([]" +++ n +++ ", table.RowCount())").
    rewrite scan_T, scan_Name by (auto; reflexivity). rewrite scan_T, scan_Name by (auto; reflexivity). rewrite scan_T, scan_Name by (auto; reflexivity). rewrite scan_T0. cbn [option_map].
    change (scan [T (t1 +++ "for rowIndex := 0; rowIndex < table.RowCount(); rowIndex++ {")] (tb +++ "for rowIndex := 0; rowIndex < table.RowCount(); rowIndex++ {")) with (Some (@nil string)).
    rewrite (read_separated g (from_stmts n)).
    2:{ intros p r P. destruct (CO p P) as [C D]. now apply from_group. }
    change (tb +++ "return " +++ n +++ ", nil") with ((t1 +++ "return ") +++ n +++ ", nil").
    rewrite scan_T, scan_Name by (auto; reflexivity). rewrite scan_T0. reflexivity.
  - rewrite !has_app, (no_slash_name _ I). reflexivity.
  - cbn [List.app]. do 8 (constructor; [rewrite ?has_app, ?quoted_nl, ?EN, ?has_app, ?(no_nl_name _ I), ?(no_nl_name _ FI); reflexivity|]).
    apply Forall_app. split.
    + apply separated_no_nl. apply Forall_forall. intros x X. apply in_map_iff in X as (p & <- & P). destruct (CO p P) as [[C TY] D].
      destruct (accessor_ok _ TY D) as (A & _). unfold g, get_line, store_line, if_err. cbn [List.app].
      repeat (constructor; [rewrite ?has_app, ?quoted_nl, ?(no_nl_name _ C), ?(no_nl_name _ A), ?(no_nl_name _ I); reflexivity|]). constructor.
    + repeat (constructor; [rewrite ?has_app, ?(no_nl_name _ I); reflexivity|]). constructor.
Qed.

(** ---------- []string literals ---------- *)

Lemma quoted_not_close w s : (quoted w +++ s =? "}") = false.
Proof. reflexivity. Qed.
Lemma literals_eq l : forall k, l <> [] -> List.length l <= k -> Forall no_escape l ->
  literals k (String.concat "," (map quoted l) +++ "}") = Some l.
Proof.
  induction l as [|w l IH]; intros k NE L F; [contradiction|]. inversion F as [|? ? P F']; subst. destruct k as [|k]; [cbn in L; lia|]. cbn [literals].
  destruct l as [|v l].
  - cbn [map String.concat]. rewrite (literal_app _ _ P). reflexivity.
  - change (String.concat "," (map quoted (w :: v :: l))) with (quoted w +++ "," +++ String.concat "," (map quoted (v :: l))).
    rewrite !app_str_assoc. rewrite (literal_app _ _ P). change (("," +++ String.concat "," (map quoted (v :: l)) +++ "}") =? "}") with false. cbv iota.
    change (String.prefix "," ("," +++ String.concat "," (map quoted (v :: l)) +++ "}")) with (String.prefix "," ("," +++ (String.concat "," (map quoted (v :: l)) +++ "}"))).
    rewrite prefix_app. change 1 with (String.length ",") at 1. rewrite drop_app. rewrite IH; [reflexivity|discriminate| |exact F']. cbn [List.length] in *. lia.
Qed.
Lemma concat_quoted_length l : List.length l <= String.length (String.concat "," (map quoted l)).
Proof.
  induction l as [|w l IH]; [cbn; lia|]. destruct l as [|v l]; [cbn; lia|].
  change (String.concat "," (map quoted (w :: v :: l))) with (quoted w +++ "," +++ String.concat "," (map quoted (v :: l))). rewrite !length_app_str.
  change (String.length ",") with 1. cbn [List.length] in *. lia.
Qed.
Lemma string_list_eq l : Forall no_escape l -> string_list ("[]string{" +++ String.concat "," (map quoted l) +++ "}") = Some l.
Proof.
  intros F. destruct l as [|w l]; [reflexivity|]. unfold string_list.
  replace (_ =? "[]string{}") with false.
  2:{ symmetry. apply String.eqb_neq. intros H. apply (f_equal (drop 9)) in H. change 9 with (String.length "[]string{") in H at 1. rewrite drop_app in H. change (drop 9 "[]string{}") with "}" in H. destruct l; discriminate H. }
  rewrite prefix_app. change 9 with (String.length "[]string{"). rewrite drop_app. apply literals_eq; [discriminate| |exact F].
  rewrite !length_app_str. pose proof (concat_quoted_length (w :: l)). lia.
Qed.
Lemma type_no_escape ct : In ct all_types -> no_escape ct /\ all_c printable ct = true.
Proof. intros I. types I; repeat split; reflexivity. Qed.

(** ---------- the function that makes a table ---------- *)

Definition to_stmts (p : string * string) : list stmt := [SSet (setterName (snd p)) (fst p) (fst p); SCheck].
Definition to_of (t : table) : to_func :=
  mkTo ("TypeStructSliceToTable_" +++ tname t) (tname t) (tname t) (cnames t) (ctypes t) ([SAppend; SCheck] ++ flat_map to_stmts (cols t)).

Lemma set_line_fixed cn m : (set_line cn m =? t1 +++ "}") = false /\ (set_line cn m =? "") = false /\ (set_line cn m =? t2 +++ "if err != nil {") = false.
Proof. repeat split. Qed.
Lemma to_group p r : col_ok p -> go_column (snd p) ->
  read_body (([set_line (fst p) (setterName (snd p))] ++ if_err (tb +++ tb)) ++ r) = before (to_stmts p) (read_body r).
Proof.
  intros [C TY] G. destruct (accessor_ok _ TY G) as (_ & A & _). rewrite <- !app_assoc. destruct (set_line_fixed (fst p) (setterName (snd p))) as (G1 & G2 & G3).
  change ([set_line (fst p) (setterName (snd p))] ++ if_err (tb +++ tb) ++ r) with (set_line (fst p) (setterName (snd p)) :: (if_err (tb +++ tb) ++ r)).
  rewrite (read_body_stmt _ _ _ G1 G2 G3 (read_set _ _ C A ltac:(discriminate))). rewrite read_body_check. rewrite before_before. reflexivity.
Qed.
Lemma mapM_rmap {A B} (f : A -> res B) l : mapM f l = rmap f l.
Proof. induction l as [|x l IH]; [reflexivity|]. cbn. destruct (f x); [|reflexivity..]. cbn. rewrite IH. reflexivity. Qed.
Lemma slices_eq t : wf_table t -> is_nil t = false -> GetColInfoAsSlices t = Ok (cnames t, ctypes t).
Proof.
  intros W N. unfold GetColInfoAsSlices. rewrite N. rewrite mapM_rmap. rewrite (rmap_of_nth _ _ (cols t)).
  - cbn [rbind]. now rewrite cols_names, cols_types.
  - now rewrite zseq_length, cols_length.
  - intros i z Z. rewrite nth_error_zseq in Z. destruct (Nat.ltb_spec i (List.length (cnames t))) as [L|]; [|discriminate]. injection Z as <-.
    destruct (nth_error_lt (cnames t) i L) as [cn CN]. rewrite <- (wf_types_len _ W) in L. destruct (nth_error_lt (ctypes t) i L) as [ct CT]. rewrite (wf_types_len _ W) in L.
    exists (cn, ct). split; [now apply cols_nth|]. unfold ColName, ColCount.
    replace ((Z.of_nat i <? 0) || (Z.of_nat i >? Z.of_nat (List.length (cnames t)) - 1))%Z with false
      by (symmetry; apply orb_false_iff; split; [apply Z.ltb_ge|rewrite Z.gtb_ltb; apply Z.ltb_ge]; lia).
    rewrite znth_of_nat, CN. cbn [rbind]. unfold ColType. replace (mget (cmap t) cn) with (Some i) by (symmetry; now apply (wf_map _ W)). rewrite CT. reflexivity.
Qed.

Theorem to_text ip now t : has "/" now = false -> wf_table t -> is_nil t = false -> identifier (tname t) = true -> Forall (fun cn => identifier cn = true) (cnames t) -> Forall go_column (ctypes t) ->
  exists s, GenerateTypeStructSliceToTable ip now t = Ok s /\ read_to s = Some (to_of t).
Proof.
  intros N W NN I F G. unfold GenerateTypeStructSliceToTable. rewrite slices_eq by auto. cbn [rbind]. rewrite each_column_eq by exact W. cbn [rbind]. eexists. split; [reflexivity|].
  set (n := tname t) in *. set (fn := "TypeStructSliceToTable_" +++ n).
  assert (FI : identifier fn = true) by (apply ident_prefix; [reflexivity|exact I|apply not_keyword; reflexivity]).
  destruct (err_text_plain fn n FI I) as [EP EN].
  assert (CO : forall p, In p (cols t) -> col_ok p /\ go_column (snd p)).
  { intros p P. destruct (cols_in t p W P) as (A & B & C). rewrite Forall_forall in F, G. split; [split|]; auto. }
  set (g := fun p : string * string => [set_line (fst p) (setterName (snd p))] ++ if_err (tb +++ tb)).
  replace (map _ (cols t)) with (map g (cols t)).
  2:{ apply map_ext_in. intros p P. unfold g, set_line. destruct (CO p P) as [[C _] _]. rewrite (Quote_ident ip _ C). reflexivity. }
  assert (QN : map (Quote ip) (cnames t) = map quoted (cnames t)). { apply map_ext_in. intros c C. apply Quote_ident. rewrite Forall_forall in F. auto. }
  assert (QT : map (Quote ip) (ctypes t) = map quoted (ctypes t)). { apply map_ext_in. intros c C. apply Quote_printable. apply type_no_escape. pose proof (wf_types _ W) as FT. rewrite Forall_forall in FT. auto. }
  unfold stringSliceToLiteral. rewrite QN, QT, (Quote_ident ip n I).
  assert (PN : Forall no_escape (cnames t)) by (eapply Forall_impl; [|exact F]; intros; now apply ident_no_escape).
  assert (PT : Forall no_escape (ctypes t)) by (eapply Forall_impl; [|exact (wf_types _ W)]; intros; now apply type_no_escape).
  set (ln := "[]string{" +++ String.concat "," (map quoted (cnames t)) +++ "}").
  set (lt := "[]string{" +++ String.concat "," (map quoted (ctypes t)) +++ "}").
  assert (NQ : forall l, Forall (fun c => has nl c = false) l -> has nl (String.concat "," (map quoted l)) = false).
  { intros l. induction 1 as [|c l C FC IH]; [reflexivity|]. destruct l as [|d l]; [cbn [map String.concat]; now rewrite quoted_nl|].
    change (String.concat "," (map quoted (c :: d :: l))) with (quoted c +++ "," +++ String.concat "," (map quoted (d :: l))). now rewrite !has_app, quoted_nl, C, IH. }
  assert (LN : has nl ln = false). { unfold ln. rewrite !has_app, NQ; [reflexivity|]. eapply Forall_impl; [|exact F]. intros; now apply no_nl_name. }
  assert (LT : has nl lt = false). { unfold lt. rewrite !has_app, NQ; [reflexivity|]. eapply Forall_impl; [|exact (wf_types _ W)]. intros; now apply type_no_nl. }
  unfold read_to. rewrite source_out; [|exact N| |].
  - cbn [List.app if_err].
    rewrite scan_T, scan_Name by (auto; reflexivity). rewrite scan_T, scan_Name by (auto; reflexivity). rewrite scan_T0. cbn [option_map].
    change (scan [T (t1 +++ "if slice == nil {")] (tb +++ "if slice == nil {")) with (Some (@nil string)).
    change (tb +++ tb +++ "return nil, fmt.Errorf(" +++ quoted (fn +++ "(slice []" +++ n +++ ") slice is <nil>") +++ ")") with
      ((t2 +++ "return nil, fmt.Errorf(") +++ quoted (fn +++ "(slice []" +++ n +++ ") slice is <nil>") +++ ")").
    rewrite scan_T, (scan_Literal _ _ _ EP), scan_T0. cbn [option_map].
    change (scan [T (t1 +++ "}")] (tb +++ "}")) with (Some (@nil string)). change (scan [] "") with (Some (@nil string)).
    change (scan [T (t1 +++ "var err error")] (tb +++ "var err error")) with (Some (@nil string)).
    change (scan [T (t1 +++ "var table *gotables.Table")] (tb +++ "var table *gotables.Table")) with (Some (@nil string)).
    change (tb +++ "var tableName string = " +++ quoted n) with ((t1 +++ "var tableName string = ") +++ quoted n).
    rewrite scan_T, scan_Literal0 by (now apply ident_no_escape). cbn [scan option_map].
    change (scan [] "") with (Some (@nil string)).
    change (tb +++ "var colNames []string = " +++ ln) with ((t1 +++ "var colNames []string = ") +++ ln).
    change (tb +++ "var colTypes []string = " +++ lt) with ((t1 +++ "var colTypes []string = ") +++ lt).
    rewrite !prefix_app, !drop_app.
    set (b := read_body _).
    assert (B : b = Some ([SAppend; SCheck] ++ flat_map to_stmts (cols t), [""; tb +++ "return table, nil"; "}"])).
    { unfold b. rewrite (read_body_stmt _ SAppend) by reflexivity.
      change (before [SAppend] (read_body (if_err (tb +++ tb) ++ "" :: (separated (map g (cols t)) ++ (tb +++ "}") :: [""; tb +++ "return table, nil"; "}"]))) = Some ([SAppend; SCheck] ++ flat_map to_stmts (cols t), [""; tb +++ "return table, nil"; "}"])).
      rewrite read_body_check, read_body_blank, before_before.
      rewrite (read_separated g to_stmts); [reflexivity|]. intros p r P. destruct (CO p P) as [C D]. now apply to_group. }
    rewrite B. unfold ln, lt. rewrite !string_list_eq by assumption. reflexivity.
  - rewrite !has_app, (no_slash_name _ I). reflexivity.
  - cbn [List.app if_err]. repeat (constructor; [rewrite ?has_app, ?quoted_nl, ?EN, ?LN, ?LT, ?has_app, ?(no_nl_name _ I), ?(no_nl_name _ FI); reflexivity|]).
    apply Forall_app. split.
    + apply separated_no_nl. apply Forall_forall. intros x X. apply in_map_iff in X as (p & <- & P). destruct (CO p P) as [[C TY] D].
      destruct (accessor_ok _ TY D) as (_ & A & _). unfold g, set_line, if_err. cbn [List.app].
      repeat (constructor; [rewrite ?has_app, ?quoted_nl, ?(no_nl_name _ C), ?(no_nl_name _ A), ?(no_nl_name _ I); reflexivity|]). constructor.
    + repeat (constructor; [rewrite ?has_app, ?(no_nl_name _ I); reflexivity|]). constructor.
Qed.
