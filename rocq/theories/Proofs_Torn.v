(** Proofs_Torn.v -- reading a beginning of the text of a table set. *)
From Coq Require Import ZArith NArith List String Ascii Bool SpecFloat Lia.
From Verif Require Import Base Model_Names Model_Table Model_Heap Model_TableSet Spec Spec_Text Model_Lex Model_Float Model_Time Model_Parser Model_Print
  Proofs_Lib Proofs_Table Proofs_TableSet Proofs_Lex Proofs_Num Proofs_Float Proofs_Parser Proofs_FloatText Proofs_TimeText Proofs_Lines Proofs_Block Proofs_CellText Proofs_Unpadded Proofs_Padded Proofs_SetText Proofs_Document.
Import ListNotations.
Local Open Scope string_scope.
Local Open Scope list_scope.

(** ---------- the lines of a beginning ---------- *)

Lemma lines_cons s : exists l ls, lines s = l :: ls.
Proof. destruct s as [|c s]; cbn [lines]; [eauto|]. destruct (Ascii.eqb c nl); [eauto|]. destruct (lines s); eauto. Qed.
Lemma lines_prefix a b : exists k x y, lines a = firstn k (lines (a ++ b)%string) ++ [x] /\ nth_error (lines (a ++ b)%string) k = Some (x ++ y)%string.
Proof.
  induction a as [|c a (k & x & y & E & N)].
  - destruct (lines_cons b) as (l & ls & E). exists 0, "", l. cbn [append]. rewrite E. split; reflexivity.
  - cbn [append lines]. destruct (Ascii.eqb c nl).
    + exists (S k), x, y. cbn [firstn nth_error app]. now rewrite <- E.
    + destruct (lines_cons (a ++ b)%string) as (l & ls & E2). rewrite E2 in *. destruct k as [|k].
      * cbn [firstn app nth_error] in *. rewrite E. exists 0, (String c x), y. cbn [firstn app nth_error append]. split; [reflexivity|]. now injection N as ->.
      * cbn [firstn app] in E. rewrite E. exists (S k), x, y. cbn [firstn app nth_error] in *. auto.
Qed.

Lemma TrimSpace_inside s : exists a b, s = (a ++ TrimSpace s ++ b)%string.
Proof.
  unfold TrimSpace. cbv zeta. set (l := trim_spaces (String.length s) space_encodings s).
  destruct (trim_spaces_spec _ encodings_nonempty _ s (Nat.le_refl _)) as [[a A] _]. fold l in A.
  destruct (trim_spaces_spec _ rev_encodings_nonempty (String.length l) (srev l)) as [[k K] _].
  { now rewrite srev_len. }
  set (t := trim_spaces (String.length l) (map srev space_encodings) (srev l)) in *.
  assert (Q : l = (srev t ++ srev k)%string) by (rewrite <- srev_app_str, <- K; now rewrite srev_srev).
  exists a, (srev k). now rewrite <- Q.
Qed.
Lemma has_inside c s : has c s = false -> has c (TrimSpace s) = false.
Proof.
  intros H. destruct (TrimSpace_inside s) as (a & b & E). rewrite E in H. rewrite !has_app in H. apply orb_false_iff in H as [_ H]. now apply orb_false_iff in H as [H _].
Qed.
Lemma until_none c s : has c s = false -> until c s = None.
Proof. intros H. destruct (until c s) as [[a b]|] eqn:U; [|reflexivity]. apply until_app in U as [-> _]. rewrite has_app in H. apply orb_false_iff in H as [_ H]. unfold has in H. cbn in H. now rewrite Ascii.eqb_refl in H. Qed.

(** ---------- the last line ---------- *)

Lemma blank_line c g1 g2 : parse_line "" g1 = Ok (c, g2) -> ps_heap g2 = ps_heap g1 /\ ps_set g2 = ps_set g1.
Proof. unfold parse_line. change (TrimSpace "") with "". cbn match. destruct (ps_expecting g1); intros [= <- <-] || intros H; try discriminate; auto. Qed.
Lemma last_line x g g' : parse_rest [x] g = Ok g' -> exists c g1, parse_line x g = Ok (c, g1) /\ ps_heap g' = ps_heap g1 /\ ps_set g' = ps_set g1.
Proof.
  cbn [parse_rest parse_lines]. destruct (parse_line x g) as [[c g1]| |]; cbn [rbind]; try discriminate. destruct c.
  - destruct (parse_line "" g1) as [[c2 g2]| |] eqn:E; cbn [rbind]; try discriminate. intros [= <-]. apply blank_line in E. exists true, g1. auto.
  - intros [= <-]. exists false, g1. auto.
Qed.

(** ---------- what a row adds to the heap ---------- *)

Lemma get_value_grew p ct s h h' v rest : get_value p ct s h = Ok (h', v, rest) -> grew h h'.
Proof.
  assert (P : forall A B (r : res (A * B)) f u w, pure h r f = Ok (h', u, w) -> grew h h').
  { intros A B r f u w. unfold pure. destruct r as [[a b]| |]; cbn [rbind]; try discriminate. intros E. injection E as <- _ _. apply grew_refl. }
  unfold get_value. destruct (int_kind ct); [apply P|].
  repeat match goal with |- (if ?b then _ else _) = _ -> _ => destruct b; [first [apply P | idtac]|] end; try discriminate; try apply P.
  unfold get_table. destruct (match scan_bracketed s with Some _ => _ | None => _ end) as [[t r]| |]; cbn [rbind]; try discriminate.
  intros E. injection E as <- _ _. now exists [with_parent (Some p) t].
Qed.
Lemma get_values_grew p : forall cts s h h' vs, get_values p cts s h = Ok (h', vs) -> grew h h' /\ List.length vs = List.length cts.
Proof.
  induction cts as [|ct cts IH]; intros s h h' vs; cbn [get_values]; destruct (s =? "")%string; try discriminate.
  - intros [= <- <-]. split; [apply grew_refl|reflexivity].
  - destruct (get_value p ct s h) as [[[h1 v] rest]| |] eqn:E; cbn [rbind]; try discriminate.
    destruct (get_values p cts (trim_left is_blank rest) h1) as [[h2 vs']| |] eqn:E2; cbn [rbind]; try discriminate. intros [= <- <-].
    apply IH in E2 as [G L]. apply get_value_grew in E. split; [eapply grew_trans; eauto|cbn; auto].
Qed.

(** ---------- a torn table ---------- *)

(** [t] is what a reader makes of the first lines of [b]. *)
Definition torn_item (b : item_text) (t : table) : Prop :=
  tname t = it_name b /\ is_nil t = false /\
  ((rows t = [] /\ (cnames t = [] \/ cnames t = it_cns b \/ exists c, cnames t = [c])) \/
   (cnames t = it_cns b /\ ctypes t = it_cts b /\ exists i,
      rows t = firstn i (it_rows b) \/ (i < List.length (it_rows b) /\ exists row, rows t = firstn i (it_rows b) ++ [row]))).

(** What became of the state *)
Definition torn_state (b : item_text) (g g' : parse_state) : Prop :=
  (ps_heap g' = ps_heap g /\ ps_set g' = ps_set g) \/
  exists t l, ps_heap g' = ps_heap g ++ t :: l /\ torn_item b t /\
    ps_set g' = mkTS (ts_name (ps_set g)) (ts_file (ps_set g)) (ts_tables (ps_set g) ++ [Some (List.length (ps_heap g))]).

Lemma app_str_inj_r (a b c : string) : (a ++ c = b ++ c)%string -> a = b.
Proof.
  intros E. apply (f_equal srev) in E. rewrite !srev_app_str in E.
  assert (I : forall p x y, (p ++ x = p ++ y)%string -> x = y) by (induction p as [|d p IH]; intros x y Q; [exact Q|injection Q; apply IH]).
  apply I in E. apply (f_equal srev) in E. now rewrite !srev_srev in E.
Qed.

Lemma name_no_bracket n : ascii_name n -> has "]" n = false.
Proof.
  intros A. apply ascii_name_words in A as [_ A]. rewrite has_all_c. rewrite (all_c_impl is_word); [reflexivity| |exact A].
  intros q H. destruct (Ascii.eqb_spec "]" q) as [<-|]; [discriminate|reflexivity].
Qed.
Lemma has_here c a b : has c (a ++ String c b)%string = true.
Proof. rewrite has_app. apply orb_true_iff. right. unfold has. cbn. now rewrite Ascii.eqb_refl. Qed.
Lemma no_bracket_line w : all_c graphic w = true -> w <> "" -> has "]" w = false -> getTableSetName w = Err /\ getTableName w = Err.
Proof.
  intros G N H. unfold getTableSetName, getTableName. rewrite Fields_word by assumption. split.
  - destruct (scan_set_name w) eqn:S; [|reflexivity]. exfalso. unfold scan_set_name in S. destruct w as [|b r]; [discriminate|].
    destruct (Ascii.eqb b "["); [|discriminate]. destruct (scan_bracketed r) as [[m rest]|] eqn:B; [|discriminate].
    apply scan_bracketed_app in B as (-> & _). change (String b ("[" ++ m ++ "]" ++ rest))%string with ((String b (String "[" m)) ++ String "]" rest)%string in H.
    rewrite has_here in H. discriminate.
  - destruct (scan_bracketed w) as [[m rest]|] eqn:B; [|reflexivity]. apply scan_bracketed_app in B as (-> & _). exfalso.
    change ("[" ++ m ++ "]" ++ rest)%string with ((String "[" m) ++ String "]" rest)%string in H. rewrite has_here in H. discriminate.
Qed.
Lemma until_here c a b : has c a = false -> until c (a ++ String c b)%string = Some (a, b).
Proof. intros H. rewrite until_skip by exact H. cbn [until]. rewrite Ascii.eqb_refl. now rewrite app_str_nil_r. Qed.
Lemma cut_at_bracket n rest x y : has "]" n = false -> (n ++ String "]" rest = x ++ y)%string -> has "]" x = true ->
  exists z, x = (n ++ String "]" z)%string /\ rest = (z ++ y)%string.
Proof.
  intros N E H. destruct (until "]" x) as [[a b]|] eqn:U.
  - apply until_app in U as [-> A]. apply (f_equal (until "]")) in E. rewrite app_str_assoc in E. cbn [append] in E. rewrite !until_here in E by assumption.
    injection E as -> ->. eauto.
  - exfalso. clear - H U. revert H U. induction x as [|d x IH]; [discriminate|]. unfold has. cbn [list_ascii_of_string existsb until]. rewrite (Ascii.eqb_sym "]" d).
    destruct (Ascii.eqb d "]"); [discriminate|]. cbn [orb]. intros H. destruct (until "]" x) as [[? ?]|]; [discriminate|]. intros _. now apply IH.
Qed.
Lemma all_c_cut f x y : all_c f (x ++ y)%string = true -> all_c f x = true.
Proof. rewrite all_c_app. intros H. now apply andb_true_iff in H as [H _]. Qed.

(** A beginning of the line of a name *)
Lemma name_line_cut n x y g c g1 : ascii_name n -> ("[" ++ n ++ "]" = x ++ y)%string -> ps_expecting g = TABLE_NAME ->
  parse_line x g = Ok (c, g1) -> x = "" \/ x = ("[" ++ n ++ "]")%string.
Proof.
  intros A E X P. destruct (String.eqb x "") eqn:XE; [left; now apply String.eqb_eq|right].
  assert (XN : x <> "") by (intros ->; discriminate).
  pose proof (name_line_graphic n A) as G. rewrite E in G. apply all_c_cut in G.
  pose proof (TrimSpace_graphic x XN G) as T. unfold parse_line in P. rewrite T in P.
  destruct x as [|d x]; [congruence|]. cbn [append] in E. injection E as <- E. change (Ascii.eqb "[" "#") with false in P. cbn match in P. rewrite X in P.
  destruct (has "]" x) eqn:H.
  - destruct (cut_at_bracket n "" x y (name_no_bracket n A) E H) as (z & -> & Z). destruct z; [reflexivity|discriminate].
  - exfalso. assert (H' : has "]" (String "[" x) = false) by (unfold has in *; cbn; exact H).
    destruct (no_bracket_line _ G XN H') as [S1 S2]. unfold table_name_line in P. rewrite S1, S2 in P. destruct (ps_named g); discriminate.
Qed.
(** A beginning of the line of the name of the set *)
Lemma set_name_line_cut n x y g c g1 : ascii_name n -> ("[[" ++ n ++ "]]" = x ++ y)%string -> ps_expecting g = TABLE_NAME ->
  parse_line x g = Ok (c, g1) -> x = "" \/ x = ("[[" ++ n ++ "]]")%string.
Proof.
  intros A E X P. destruct (String.eqb x "") eqn:XE; [left; now apply String.eqb_eq|right].
  assert (XN : x <> "") by (intros ->; discriminate).
  assert (G : all_c graphic ("[[" ++ n ++ "]]")%string = true).
  { pose proof (name_line_graphic n A) as Q. cbn [append all_c] in *. rewrite all_c_app in *. cbn [all_c andb] in *. rewrite !andb_true_iff in *. tauto. }
  rewrite E in G. apply all_c_cut in G.
  pose proof (TrimSpace_graphic x XN G) as T. unfold parse_line in P. rewrite T in P.
  destruct x as [|d x]; [congruence|]. cbn [append] in E. injection E as <- E. change (Ascii.eqb "[" "#") with false in P. cbn match in P. rewrite X in P.
  destruct (has "]" x) eqn:H.
  - destruct x as [|d x]; [discriminate|]. cbn [append] in E. injection E as <- E.
    destruct (cut_at_bracket n "]" x y (name_no_bracket n A) E) as (z & -> & Z).
    { unfold has in *. cbn in H. exact H. }
    destruct z as [|d z]; cbn [append] in Z; [|injection Z as <- Z; destruct z; [reflexivity|discriminate]].
    exfalso. subst y. unfold table_name_line in P.
    assert (S1 : getTableSetName (String "[" (String "[" (n ++ "]"))) = Err).
    { unfold getTableSetName. rewrite Fields_word by (exact G || discriminate). cbn [scan_set_name]. change (Ascii.eqb "[" "[") with true. cbn match.
      pose proof (scan_bracketed_name n "" A) as Q. rewrite app_str_nil_r in Q. change (String "[" (n ++ "]")) with ("[" ++ n ++ "]")%string. rewrite Q. reflexivity. }
    assert (S2 : getTableName (String "[" (String "[" (n ++ "]"))) = Err).
    { unfold getTableName. rewrite Fields_word by (exact G || discriminate). reflexivity. }
    rewrite S1, S2 in P. destruct (ps_named g); discriminate.
  - exfalso. assert (H' : has "]" (String "[" x) = false) by (unfold has in *; cbn; exact H).
    destruct (no_bracket_line _ G XN H') as [S1 S2]. unfold table_name_line in P. rewrite S1, S2 in P. destruct (ps_named g); discriminate.
Qed.

(** ---------- the lines of the columns ---------- *)

Definition new_table (n : string) : table := with_nil false (with_name n NewNilTable).
Lemma new_table_ok n : valid_name n -> wf_table (new_table n) /\ fresh_table n [] [] [] (new_table n).
Proof.
  intros V. assert (NT : NewTable n = Ok (new_table n)) by (rewrite NewTable_spec; now rewrite (proj2 (IsValidTableName_spec n) V)).
  apply NewTable_wf in NT as (W & _). split; [exact W|]. constructor; reflexivity.
Qed.

Lemma names_line_cut h ts d ns0 ts0 named n x c g1 : valid_name n -> has "=" x = false ->
  parse_line x (block_state h ts COL_NAMES UNDEFINED_SHAPE d ns0 ts0 named (new_table n)) = Ok (c, g1) ->
  exists t, ps_heap g1 = h ++ [t] /\ ps_set g1 = ps_set (block_state h ts COL_NAMES UNDEFINED_SHAPE d ns0 ts0 named (new_table n)) /\
    tname t = n /\ is_nil t = false /\ rows t = [] /\ (cnames t = [] \/ exists c, cnames t = [c]).
Proof.
  intros V NE. destruct (new_table_ok n V) as [W FT].
  assert (K : exists t, h ++ [new_table n] = h ++ [t] /\ tname t = n /\ is_nil t = false /\ rows t = [] /\ (cnames t = [] \/ exists c, cnames t = [c])).
  { exists (new_table n). split; [reflexivity|]. repeat split; auto. }
  unfold parse_line. pose proof (has_inside _ _ NE) as NT. destruct (TrimSpace x) as [|q r] eqn:T.
  { cbn [block_state ps_expecting]. intros [= <- <-]. cbn [with_expecting ps_heap ps_set block_state]. destruct K as (t & E & K). exists t. rewrite E. tauto. }
  destruct (Ascii.eqb q "#").
  { intros [= <- <-]. cbn [ps_heap ps_set block_state]. destruct K as (t & E & K). exists t. rewrite E. tauto. }
  unfold col_names_line, block_state. cbn [ps_expecting ps_shape].
  destruct (getTableShape (split_white (String q r))) as [[sh dd]| |]; cbn [rbind with_shape_data ps_shape]; try discriminate.
  destruct sh.
  - destruct (getColNames _) as [cns| |]; cbn [rbind]; try discriminate. intros [= <- <-]. cbn. destruct K as (t & E & K). exists t. rewrite E. tauto.
  - unfold current, with_shape_data. cbn [ps_table ps_heap ps_set ps_expecting ps_has_data ps_names ps_types ps_named rbind block_state]. unfold on_current. cbn [ps_heap].
    rewrite on_heap_last. cbn [SetStructShape modify s_tab s_news rbind]. unfold new_nils at 1. cbn [map]. rewrite app_nil_r.
    destruct (Nat.ltb _ 2); [discriminate|]. destruct (at_ _ 0) as [cn| |]; cbn [rbind]; try discriminate. destruct (at_ _ 1) as [ct| |]; cbn [rbind]; try discriminate.
    destruct (negb (IsValidColName cn)); [discriminate|]. destruct (negb (IsValidColType ct)); [discriminate|].
    unfold with_heap. cbn [ps_heap]. rewrite on_heap_last. rewrite AppendCol_eq.
    2:{ cbn [s_tab]. destruct W. constructor; assumption. }
    destruct (can_append_col _ cn ct); cbn [rbind]; [|discriminate].
    cbn [ps_heap ps_has_data ps_set ps_expecting ps_shape ps_names ps_types ps_named ps_table].
    destruct dd.
    + unfold struct_value. rewrite (until_none _ _ NT). discriminate.
    + cbn [rbind]. intros [= <- <-]. cbn [ps_heap ps_set]. eexists. split; [|split; [reflexivity|]].
      * cbn [s_news col_added]. cbn [rows new_table with_nil with_name NewNilTable s_tab with_shape List.length].
        replace (if is_tab ct then 0 else 0) with 0 by (now destruct (is_tab ct)). cbn [repeat app new_nils map]. unfold new_nils. cbn [map]. rewrite app_nil_r. reflexivity.
      * cbn. repeat split; auto. right. eauto.
  - destruct (getColNames _) as [cns| |]; cbn [rbind]; try discriminate. intros [= <- <-]. cbn. destruct K as (t & E & K). exists t. rewrite E. tauto.
Qed.

Lemma words_ok cns : Forall valid_name cns -> Forall (fun w => word w /\ hard_first w /\ hard_last w /\ has nl w = false) cns.
Proof. intros VN. eapply Forall_impl; [|exact VN]. intros w W. apply valid_name_bytes in W as [? ?]. now apply name_word. Qed.
Lemma parse_names_line L1 cns h ts d ns0 ts0 named n : spread cns L1 -> cns <> [] -> Forall valid_name cns ->
  parse_line L1 (block_state h ts COL_NAMES UNDEFINED_SHAPE d ns0 ts0 named (new_table n)) =
  Ok (false, block_state h ts COL_TYPES TABLE_SHAPE false cns ts0 named (new_table n)).
Proof.
  intros S1 N VN. pose proof (words_ok cns VN) as A1.
  assert (X : Forall word cns /\ Forall hard_first cns /\ Forall hard_last cns) by (repeat split; (eapply Forall_impl; [|exact A1]; cbv beta; intros; tauto)).
  destruct X as (W1 & F1 & E1). apply (TrimSpace_spread _ _) in S1; auto.
  pose proof (split_white_spaced _ _ S1 W1) as P1.
  assert (T1 : exists c r, TrimSpace L1 = String c r /\ Ascii.eqb c "#" = false).
  { destruct cns as [|w ws]; [congruence|]. apply Forall_inv in VN as W. apply valid_name_bytes in W as [Nw Bw]. destruct w as [|c r]; [congruence|].
    cbn in Bw. apply andb_true_iff in Bw as [Bc _]. assert (Q : Ascii.eqb c "#" = false) by (destruct (Ascii.eqb_spec c "#"); [subst; discriminate|reflexivity]).
    inversion S1; subst; cbn [append]; eauto. }
  destruct T1 as (c1 & r1 & T1 & H1). unfold parse_line. rewrite T1, H1. unfold block_state. cbn [ps_expecting]. unfold col_names_line. rewrite <- T1, P1. cbn [ps_shape].
  rewrite shape_of_names by auto. cbn [rbind with_shape_data ps_shape]. unfold getColNames.
  assert (FB : forallb IsValidColName cns = true) by (apply forallb_forall; rewrite Forall_forall in VN; intros w I; now apply IsValidColName_spec, VN).
  rewrite FB. reflexivity.
Qed.

Lemma types_line_cut h ts ts0 named n cns x c g1 : valid_name n -> NoDup cns -> Forall valid_name cns ->
  parse_line x (block_state h ts COL_TYPES TABLE_SHAPE false cns ts0 named (new_table n)) = Ok (c, g1) ->
  exists t, ps_heap g1 = h ++ [t] /\ ps_set g1 = ps_set (block_state h ts COL_TYPES TABLE_SHAPE false cns ts0 named (new_table n)) /\
    tname t = n /\ is_nil t = false /\ rows t = [] /\ (cnames t = [] \/ cnames t = cns).
Proof.
  intros V D VN. destruct (new_table_ok n V) as [W FT].
  unfold parse_line. destruct (TrimSpace x) as [|q r] eqn:T; [discriminate|].
  destruct (Ascii.eqb q "#").
  { intros [= <- <-]. exists (new_table n). cbn [ps_heap ps_set block_state]. repeat split; auto. }
  unfold block_state. cbn [ps_expecting]. unfold col_types_line. unfold getColTypes. destruct (forallb IsValidColType _) eqn:FB; cbn [rbind]; [|discriminate].
  unfold with_types. cbn [ps_names ps_heap ps_set ps_expecting ps_shape ps_has_data ps_types ps_named ps_table].
  destruct (negb _) eqn:LE; [discriminate|]. apply negb_false_iff, Nat.eqb_eq in LE.
  unfold current, on_current. cbn [ps_table rbind ps_heap]. rewrite on_heap_last. set (cts := split_white (String q r)) in *.
  destruct (appendCols_fresh cns cts (mkS (new_table n) (S (List.length h)) []) n [] [] W FT eq_refl (eq_sym LE) D VN) as (t & AE & FT' & _).
  { apply Forall_forall. intros w I. rewrite forallb_forall in FB. now apply IsValidColType_spec, FB. }
  unfold appendCols, bind at 1, check. rewrite LE, Nat.eqb_refl. cbv beta iota. unfold ret at 1. rewrite AE. cbn [s_tab s_news rbind]. unfold new_nils. cbn [map]. rewrite app_nil_r.
  intros [= <- <-]. exists t. cbn. destruct FT'. cbn in *. repeat split; auto.
Qed.

(** ---------- a line of a row ---------- *)

Lemma upd_mid {A} (h : list A) t l x : upd (h ++ t :: l) (List.length h) x = h ++ x :: l.
Proof. induction h as [|y h IH]; [reflexivity|]. cbn. now rewrite IH. Qed.
Lemma row_line_cut h ts cns cts named t x c g1 : 
  parse_line x (block_state h ts COL_ROWS TABLE_SHAPE false cns cts named t) = Ok (c, g1) ->
  exists t' l, ps_heap g1 = h ++ t' :: l /\ ps_set g1 = ps_set (block_state h ts COL_ROWS TABLE_SHAPE false cns cts named t) /\
    (t' = t \/ (TrimSpace x <> "" /\ exists row, t' = with_rows (rows t ++ [row]) t)).
Proof.
  unfold parse_line. destruct (TrimSpace x) as [|q r] eqn:T.
  { intros [= <- <-]. exists t, []. cbn. auto. }
  destruct (Ascii.eqb q "#").
  { intros [= <- <-]. exists t, []. cbn. auto. }
  unfold block_state. cbn [ps_expecting]. unfold col_rows_line, current. cbn [ps_table ps_names ps_types ps_heap rbind]. unfold getRowSlice.
  destruct (get_values _ cts _ _) as [[h' vs]| |] eqn:G; cbn [rbind]; try discriminate.
  destruct (Nat.ltb _ _); cbn [rbind]; [discriminate|]. apply get_values_grew in G as [[l ->] _]. rewrite <- app_assoc. cbn [app].
  unfold on_current, with_heap. cbn [ps_heap]. unfold on_heap. rewrite nth_error_app2, Nat.sub_diag by lia. cbn [nth_error]. unfold appendRowSlice, modify. cbn [s_tab s_news rbind].
  rewrite upd_mid. unfold new_nils. cbn [map]. rewrite app_nil_r. cbn [ps_types ps_set ps_expecting ps_shape ps_has_data ps_names ps_named ps_table].
  destruct (negb _); [discriminate|]. intros [= <- <-]. eexists _, l. split; [reflexivity|]. split; [reflexivity|]. right. split; [discriminate|]. eauto.
Qed.

(** ---------- the lines of a table ---------- *)

Lemma cut_empty x y : (x ++ y)%string = "" -> x = "".
Proof. now destruct x. Qed.
Lemma spread_no_eq ws s : spread ws s -> Forall (fun w => has "=" w = false) ws -> has "=" s = false.
Proof.
  assert (SP : forall k, has "=" (spaces k) = false) by (induction k; [reflexivity|exact IHk]).
  intros (k & j & s' & -> & D) F. rewrite !has_app, !SP. cbn [orb]. rewrite orb_false_r.
  induction D as [w|w ws k' s' D IH]; [exact (Forall_inv F)|]. rewrite !has_app, (Forall_inv F), SP. cbn [orb]. apply IH. exact (Forall_inv_tail F).
Qed.
Lemma Forall2_firstn {A B} (P : A -> B -> Prop) l l' k : Forall2 P l l' -> Forall2 P (firstn k l) (firstn k l').
Proof. intros F. revert k. induction F; intros [|k]; cbn; constructor; auto. Qed.

Theorem torn_block b g k x y g' : it_ok b -> ps_expecting g = TABLE_NAME ->
  find_table (ps_heap g ++ [new_table (it_name b)]) (it_name b) (ts_tables (ps_set g)) = None ->
  nth_error (it_lines b ++ [""]) k = Some (x ++ y)%string -> parse_rest (firstn k (it_lines b ++ [""]) ++ [x]) g = Ok g' -> torn_state b g g'.
Proof.
  intros (A & V & B) X FN NE P. destruct b as [n cns cts rws ls]. cbn [it_name it_cns it_cts it_rows it_lines] in *.
  pose proof (parse_name_line n g A V X FN) as NL.
  assert (K0 : forall L, nth_error (("[" ++ n ++ "]")%string :: L) 0 = Some (x ++ y)%string -> parse_rest [x] g = Ok g' -> torn_state (mkIT n cns cts rws ls) g g').
  { intros L E Q. cbn [nth_error] in E. apply last_line in Q as (c & g1 & Q & H1 & S1). injection E as E. destruct (name_line_cut n x y g c g1 A E X Q) as [->| ->].
    - left. rewrite H1, S1. exact (blank_line _ _ _ Q).
    - right. rewrite NL in Q. apply (f_equal (fun r => match r with Ok p => snd p | _ => g1 end)) in Q. cbn [snd] in Q. subst g1.
      exists (new_table n), []. split; [exact H1|]. split; [|exact S1].
      split; [reflexivity|]. split; [reflexivity|]. left. split; [reflexivity|]. now left. }
  destruct k as [|k].
  { destruct B as [|cns cts rws L1 L2 lns S1 S2 NC L D VN VT F]; eapply K0; [exact NE|exact P|exact NE|exact P]. }
  destruct B as [|cns cts rws L1 L2 lns S1 S2 NC L D VN VT F].
  - (* no columns *)
    cbn [app nth_error firstn] in NE, P. destruct k as [|k]; [|destruct k; discriminate]. cbn [nth_error firstn app] in NE, P. injection NE as NE. symmetry in NE. apply cut_empty in NE. subst x.
    rewrite (parse_rest_cons _ _ _ _ NL) in P. apply last_line in P as (c & g1 & P & H1 & S1). apply blank_line in P as [H2 S2].
    right. exists (new_table n), []. rewrite H1, H2, S1, S2. split; [reflexivity|]. split; [|reflexivity]. split; [reflexivity|]. split; [reflexivity|]. left. split; [reflexivity|]. now left.
  - cbn [app firstn] in P. rewrite (parse_rest_cons _ _ _ _ NL) in P. clear NL. cbn [app nth_error] in NE. fold (new_table n) in P. destruct k as [|k].
    { cbn [nth_error firstn app] in NE, P. injection NE as NE. apply last_line in P as (c & g1 & P & H1 & S1').
      assert (Q : has "=" L1 = false) by (eapply spread_no_eq; [exact S1|]; eapply Forall_impl; [|exact VN]; intros; now apply name_no_eq).
      rewrite NE, has_app in Q. apply orb_false_iff in Q as [Q _].
      destruct (names_line_cut _ _ _ _ _ _ n x c g1 V Q P) as (t & Ht & St & N1 & N2 & N3 & N4).
      right. exists t, []. rewrite H1, S1', Ht, St. split; [reflexivity|]. split; [|reflexivity]. split; [exact N1|]. split; [exact N2|]. left. split; [exact N3|]. tauto. }
    cbn [firstn app] in P. rewrite (parse_rest_cons _ _ _ _ (parse_names_line L1 cns _ _ _ _ _ _ n S1 NC VN)) in P. cbn [nth_error] in NE. destruct k as [|k].
    { cbn [nth_error firstn app] in NE, P. apply last_line in P as (c & g1 & P & H1 & S1').
      destruct (types_line_cut _ _ _ _ n cns x c g1 V D VN P) as (t & Ht & St & N1 & N2 & N3 & N4).
      right. exists t, []. rewrite H1, S1', Ht, St. split; [reflexivity|]. split; [|reflexivity]. split; [exact N1|]. split; [exact N2|]. left. split; [exact N3|]. cbn [it_cns]. tauto. }
    cbn [firstn app nth_error] in P, NE.
    destruct (parse_col_lines L1 L2 cns cts (ps_heap g) (ps_set g) (ps_has_data g) (ps_names g) (ps_types g) (ps_named g) n S1 S2 NC V L D VN VT) as (t1 & FT1 & E1).
    specialize (E1 (firstn k (lns ++ [""]) ++ [x])).
    rewrite (parse_rest_cons _ _ _ _ (parse_names_line L1 cns _ _ _ _ _ _ n S1 NC VN)) in E1. rewrite E1 in P. clear E1.
    (* the first k rows *)
    assert (KL : k <= List.length lns).
    { apply nth_error_some_lt in NE. rewrite app_length in NE. cbn in NE. lia. }
    rewrite firstn_app in P. replace (k - List.length lns) with 0 in P by lia. cbn [firstn] in P. rewrite app_nil_r in P.
    destruct (parse_row_lines (ps_heap g) (ps_set g) cns cts (ps_named g) n L (firstn k rws) (firstn k lns) [] t1 FT1 (Forall2_firstn _ _ _ k F)) as (t & FT & E2).
    rewrite E2 in P. apply last_line in P as (c & g1 & P & H1 & S1'). apply row_line_cut in P as (t' & l & Ht & St & R).
    right. exists t', l. rewrite H1, S1', Ht, St. split; [reflexivity|]. split; [|reflexivity]. cbn [app] in FT. destruct FT as [F1 F2 F3 F4 F5 F6 F7 F8].
    split; [|split]; cbn [it_name it_cns it_cts it_rows].
    + destruct R as [->|(_ & row & ->)]; exact F1.
    + destruct R as [->|(_ & row & ->)]; exact F7.
    + right. destruct R as [->|(NB & row & ->)]; (split; [assumption|]; split; [assumption|]); exists k; [now left|right].
      split; [|exists row; cbn [rows with_rows]; now rewrite F4].
      destruct (Nat.eq_dec k (List.length lns)) as [->|NK].
      * exfalso. rewrite nth_error_app2, Nat.sub_diag in NE by lia. cbn in NE. injection NE as NE. symmetry in NE. apply cut_empty in NE. subst x. now apply NB.
      * rewrite (Forall2_len _ _ _ F). lia.
Qed.

(** ---------- the lines of a set ---------- *)

Definition set_lines (bs : list item_text) : list string := flat_map (fun b => it_lines b ++ [""]) bs.

(** The first tables are read, and at most one more is torn. *)
Definition torn_read (bs : list item_text) (g g' : parse_state) : Prop :=
  exists j ts, j <= List.length bs /\ Forall2 it_table (firstn j bs) ts /\
    ((ps_heap g' = ps_heap g ++ ts /\
      ps_set g' = mkTS (ts_name (ps_set g)) (ts_file (ps_set g)) (ts_tables (ps_set g) ++ map Some (seq (List.length (ps_heap g)) j))) \/
     (exists b t l, nth_error bs j = Some b /\ ps_heap g' = ps_heap g ++ ts ++ t :: l /\ torn_item b t /\
      ps_set g' = mkTS (ts_name (ps_set g)) (ts_file (ps_set g)) (ts_tables (ps_set g) ++ map Some (seq (List.length (ps_heap g)) (S j))))).

Lemma tset_eta s : mkTS (ts_name s) (ts_file s) (ts_tables s ++ []) = s.
Proof. destruct s. cbn. now rewrite app_nil_r. Qed.

Theorem torn_blocks bs : Forall it_ok bs -> forall g k x y g', ps_expecting g = TABLE_NAME -> Forall (in_heap (ps_heap g)) (ts_tables (ps_set g)) ->
  NoDup (map (ref_name (ps_heap g)) (ts_tables (ps_set g)) ++ map it_name bs) ->
  nth_error (set_lines bs) k = Some (x ++ y)%string -> parse_rest (firstn k (set_lines bs) ++ [x]) g = Ok g' -> torn_read bs g g'.
Proof.
  induction 1 as [|b bs OK F IH]; intros g k x y g' X H D NE P.
  { destruct k; discriminate. }
  assert (FN : find_table (ps_heap g ++ [new_table (it_name b)]) (it_name b) (ts_tables (ps_set g)) = None).
  { pose proof (find_table_spec (ps_heap g ++ [new_table (it_name b)]) (it_name b) (ts_tables (ps_set g))) as Q.
    destruct (find_table _ _ _) as [o|]; [|reflexivity]. exfalso. destruct Q as (i & N & R & _).
    apply (NoDup_remove_2 _ _ _ D). apply in_or_app. left. rewrite <- R. apply nth_error_In in N. rewrite ref_name_app by (rewrite Forall_forall in H; auto). now apply in_map. }
  change (set_lines (b :: bs)) with ((it_lines b ++ [""]) ++ set_lines bs) in *.
  destruct (Nat.lt_ge_cases k (List.length (it_lines b ++ [""]))) as [KL|KL].
  - rewrite nth_error_app1 in NE by exact KL. rewrite firstn_app in P. replace (k - _) with 0 in P by lia. cbn [firstn] in P. rewrite app_nil_r in P.
    destruct (torn_block b g k x y g' OK X FN NE P) as [[Hg Sg]|(t & l & Hg & T & Sg)]; exists 0, []; (split; [lia|]; split; [constructor|]).
    + left. rewrite Hg, Sg. cbn [seq map]. rewrite app_nil_r, tset_eta. auto.
    + right. exists b, t, l. split; [reflexivity|]. split; [exact Hg|]. split; [exact T|exact Sg].
  - rewrite nth_error_app2 in NE by exact KL. rewrite firstn_app, (firstn_all2 (n := k)) in P by exact KL.
    set (k' := k - List.length (it_lines b ++ [""])) in *. rewrite <- !app_assoc in P. cbn [app] in P.
    destruct OK as (A & V & B). destruct (read_block _ _ _ _ _ g A V B X FN) as (t & g1 & FT & E & X1 & H1 & S1). rewrite E in P.
    assert (NB : ref_name (ps_heap g1) (Some (List.length (ps_heap g))) = it_name b).
    { rewrite H1. unfold ref_name. rewrite tab_last. apply FT. }
    destruct (IH g1 k' x y g' X1) as (j & ts & JL & FJ & C).
    + rewrite S1, H1. cbn [ts_tables]. apply Forall_app. split.
      * eapply Forall_impl; [|exact H]. intros o. apply in_heap_app.
      * constructor; [|constructor]. exists (List.length (ps_heap g)). split; [reflexivity|]. rewrite app_length. cbn. lia.
    + rewrite S1. cbn [ts_tables]. rewrite map_app. cbn [map]. rewrite NB, H1, ref_names_app by exact H. rewrite <- app_assoc. exact D.
    + exact NE.
    + exact P.
    + exists (S j), (t :: ts). split; [cbn; lia|]. split; [cbn [firstn]; now constructor|].
      assert (SQ : forall m, map Some (seq (List.length (ps_heap g)) (S m)) = [Some (List.length (ps_heap g))] ++ map Some (seq (List.length (ps_heap g1)) m)).
      { intros m. rewrite H1, app_length. cbn [List.length seq map app]. now rewrite Nat.add_1_r. }
      destruct C as [[Hg Sg]|(b' & t' & l & Nb & Hg & T & Sg)].
      * left. rewrite Hg, Sg, H1, S1. split; [now rewrite <- app_assoc|]. cbn [ts_name ts_file ts_tables]. rewrite (SQ j), H1, <- app_assoc. reflexivity.
      * right. exists b', t', l. split; [exact Nb|]. rewrite Hg, Sg, H1, S1. split; [now rewrite <- app_assoc|]. split; [exact T|].
        cbn [ts_name ts_file ts_tables]. rewrite (SQ (S j)), H1, <- app_assoc. reflexivity.
Qed.

(** Nothing is read from the empty line. *)
Lemma torn_nothing bs g g' : ps_heap g' = ps_heap g -> ps_set g' = ps_set g -> torn_read bs g g'.
Proof. intros H S. exists 0, []. split; [lia|]. split; [constructor|]. left. rewrite H, S. cbn [seq map]. rewrite app_nil_r, tset_eta. auto. Qed.

Theorem torn_text bs n h pre post h' s' : Forall it_ok bs -> NoDup (map it_name bs) -> n = "" \/ ascii_name n ->
  ((if (n =? "")%string then "" else "[[" ++ n ++ "]]" ++ newline ++ newline) ++ String.concat newline (map (fun b => text_of (it_lines b)) bs))%string = (pre ++ post)%string ->
  NewTableSetFromString pre h = (h', Ok s') ->
  (ts_name s' = n \/ (ts_name s' = "" /\ ts_tables s' = [])) /\ ts_file s' = "" /\
  exists j ts, j <= List.length bs /\ Forall2 it_table (firstn j bs) ts /\
    ((h' = h ++ ts /\ ts_tables s' = map Some (seq (List.length h) j)) \/
     (exists b t l, nth_error bs j = Some b /\ h' = h ++ ts ++ t :: l /\ torn_item b t /\ ts_tables s' = map Some (seq (List.length h) (S j)))).
Proof.
  intros F D N EQ. unfold NewTableSetFromString. set (g0 := mkPS h (NewTableSet "") TABLE_NAME UNDEFINED_SHAPE false [] [] false None).
  destruct (parse_lines (lines pre) g0) as [g'| |] eqn:P; try discriminate. intros R. injection R as <- <-.
  assert (NL : Forall (Forall (fun l => has nl l = false)) (map it_lines bs)).
  { apply Forall_forall. intros x I. apply in_map_iff in I as (b & <- & I). rewrite Forall_forall in F. destruct (F b I) as (A & _ & B). eapply block_no_nl; eauto. }
  assert (E : map (fun b => text_of (it_lines b)) bs = map text_of (map it_lines bs)) by now rewrite map_map. rewrite E in EQ. clear E.
  set (body := String.concat newline (map text_of (map it_lines bs))) in *.
  assert (LB : lines body = match bs with [] => [""] | _ => set_lines bs end).
  { unfold body. rewrite lines_texts by exact NL. unfold set_lines. destruct bs as [|b bs]; [reflexivity|]. clear. cbn [map flat_map]. f_equal. induction bs as [|c bs IH]; cbn [map flat_map]; [reflexivity|]. now rewrite IH. }
  assert (K : forall g k x y g', ps_expecting g = TABLE_NAME -> ts_tables (ps_set g) = [] -> nth_error (lines body) k = Some (x ++ y)%string ->
    parse_rest (firstn k (lines body) ++ [x]) g = Ok g' -> torn_read bs g g').
  { intros g k x y g1 X T NE Q. rewrite LB in *. destruct bs as [|b bs].
    - destruct k as [|k]; [|destruct k; discriminate]. cbn [nth_error] in NE. injection NE as NE. symmetry in NE. apply cut_empty in NE. subst x.
      apply last_line in Q as (c & g2 & Q & H1 & S1). apply blank_line in Q as [H2 S2]. apply torn_nothing; congruence.
    - eapply torn_blocks; eauto; rewrite T; [constructor|exact D]. }
  assert (FIN : forall g, ps_heap g = h -> ts_tables (ps_set g) = [] -> ts_file (ps_set g) = "" -> torn_read bs g g' ->
    ts_name (ps_set g') = ts_name (ps_set g) /\ ts_file (ps_set g') = "" /\
    exists j ts, j <= List.length bs /\ Forall2 it_table (firstn j bs) ts /\
    ((ps_heap g' = h ++ ts /\ ts_tables (ps_set g') = map Some (seq (List.length h) j)) \/
     (exists b t l, nth_error bs j = Some b /\ ps_heap g' = h ++ ts ++ t :: l /\ torn_item b t /\ ts_tables (ps_set g') = map Some (seq (List.length h) (S j))))).
  { intros g Hg Tg Fg (j & ts & JL & FJ & C). rewrite Hg, Tg, Fg in C. cbn [app] in C.
    split; [|split]; [destruct C as [[_ ->]|(b & t & l & _ & _ & _ & ->)]; reflexivity..|]. exists j, ts. split; [exact JL|]. split; [exact FJ|].
    destruct C as [[Hh Ss]|(b & t & l & Nb & Hh & T & Ss)]; [left|right].
    - split; [exact Hh|]. rewrite Ss. reflexivity.
    - exists b, t, l. rewrite Ss. auto. }
  destruct (lines_prefix pre post) as (k & x & y & LE & NE). rewrite <- EQ in LE, NE.
  assert (PR : parse_lines (lines pre) g0 = parse_rest (lines pre) g0) by (destruct (lines_cons pre) as (? & ? & ->); reflexivity).
  rewrite PR, LE in P. clear PR.
  destruct N as [->|A].
  - change ((if "" =? "" then "" else _) ++ body)%string with body in *. destruct (FIN g0 eq_refl eq_refl eq_refl (K g0 k x y g' eq_refl eq_refl NE P)) as (N1 & N2 & N3). split; [now left|]. auto.
  - assert (NN : (n =? "") = false) by (destruct n; [destruct A|reflexivity]). rewrite NN in *.
    assert (L : lines (("[[" ++ n ++ "]]" ++ newline ++ newline) ++ body) = ("[[" ++ n ++ "]]")%string :: "" :: lines body).
    { rewrite !app_str_assoc. rewrite <- (app_str_assoc n), <- (app_str_assoc "[["). rewrite lines_line.
      - change ((newline ++ body)%string) with ("" ++ newline ++ body)%string. rewrite lines_line by reflexivity. reflexivity.
      - apply graphic_word; [discriminate|]. pose proof (name_line_graphic n A) as Q. cbn [append all_c] in *. rewrite all_c_app in *. cbn [all_c andb] in *. rewrite !andb_true_iff in *. tauto. }
    rewrite L in P, NE. clear L.
    pose proof (parse_set_name n g0 A eq_refl eq_refl) as SN.
    set (g1 := mkPS h (TS_SetName n (NewTableSet "")) TABLE_NAME UNDEFINED_SHAPE false [] [] true None).
    change (mkPS (ps_heap g0) _ _ _ _ _ _ _ _) with g1 in SN.
    assert (BL : parse_line "" g1 = Ok (false, g1)) by reflexivity.
    destruct k as [|[|k]].
    + cbn [nth_error firstn app] in NE, P. injection NE as NE. apply last_line in P as (c & g2 & P & H2 & S2).
      destruct (set_name_line_cut n x y g0 c g2 A NE eq_refl P) as [->| ->].
      * apply blank_line in P as [H3 S3]. destruct (FIN g0 eq_refl eq_refl eq_refl (torn_nothing bs g0 g' ltac:(congruence) ltac:(congruence))) as (N1 & N2 & N3).
        split; [right|auto]. rewrite S2, S3. auto.
      * rewrite SN in P. injection P as _ P. destruct (FIN g1 eq_refl eq_refl eq_refl (torn_nothing bs g1 g' ltac:(congruence) ltac:(congruence))) as (N1 & N2 & N3). split; [now left|auto].
    + cbn [nth_error firstn app] in NE, P. injection NE as NE. symmetry in NE. apply cut_empty in NE. subst x.
      cbn [parse_rest parse_lines] in P. rewrite SN in P. cbn [rbind] in P. rewrite BL in P. cbn [rbind] in P. injection P as P.
      destruct (FIN g1 eq_refl eq_refl eq_refl (torn_nothing bs g1 g' ltac:(congruence) ltac:(congruence))) as (N1 & N2 & N3). split; [now left|auto].
    + cbn [nth_error firstn app] in NE, P.
      cbn [parse_rest parse_lines] in P. rewrite SN in P. cbn [rbind] in P. rewrite BL in P. cbn [rbind] in P.
      assert (Q : parse_rest (firstn k (lines body) ++ [x]) g1 = Ok g') by (destruct (firstn k (lines body)); exact P).
      destruct (FIN g1 eq_refl eq_refl eq_refl (K g1 k x y g' eq_refl eq_refl NE Q)) as (N1 & N2 & N3). split; [now left|auto].
Qed.
