(** Proofs_SetStruct.v -- NewTableSetFromString of the text of a table set whose tables are in
    either shape. *)
From Coq Require Import ZArith NArith List String Ascii Bool SpecFloat Lia.
From Verif Require Import Base Model_Names Model_Table Model_Heap Model_TableSet Spec Spec_Text Model_Lex Model_Float Model_Time Model_Parser Model_Print
  Spec_StructText Proofs_Lib Proofs_Table Proofs_TableSet Proofs_Lex Proofs_Num Proofs_Float Proofs_Parser Proofs_FloatText Proofs_TimeText Proofs_Lines Proofs_Block Proofs_CellText Proofs_Unpadded Proofs_Padded
  Proofs_SetText Proofs_StructText.
Import ListNotations.
Local Open Scope string_scope.
Local Open Scope list_scope.

(** A table that is to be read, and its lines *)
Record piece := mkPc { pc_name : string; pc_table : table -> Prop; pc_lines : list string }.
Definition pc_ok (b : piece) : Prop := reads_table (pc_name b) (pc_table b) (pc_lines b).

Lemma read_pieces bs : Forall pc_ok bs -> forall g, ps_expecting g = TABLE_NAME -> Forall (in_heap (ps_heap g)) (ts_tables (ps_set g)) ->
  NoDup (map (ref_name (ps_heap g)) (ts_tables (ps_set g)) ++ map pc_name bs) ->
  exists ts g', Forall2 pc_table bs ts /\ (forall rest, parse_rest (flat_map (fun b => pc_lines b ++ [""]) bs ++ rest) g = parse_rest rest g') /\
    ps_expecting g' = TABLE_NAME /\ ps_heap g' = ps_heap g ++ ts /\
    ps_set g' = mkTS (ts_name (ps_set g)) (ts_file (ps_set g)) (ts_tables (ps_set g) ++ map Some (seq (List.length (ps_heap g)) (List.length bs))).
Proof.
  induction 1 as [|b bs B F IH]; intros g X H D.
  - exists [], g. cbn [flat_map map seq List.length]. rewrite !app_nil_r. split; [constructor|]. split; [reflexivity|]. split; [exact X|]. split; [reflexivity|]. now destruct (ps_set g).
  - destruct (rt_read _ _ _ B g X) as (t & g1 & FT & E & X1 & H1 & S1).
    { pose proof (find_table_spec (ps_heap g ++ [with_nil false (with_name (pc_name b) NewNilTable)]) (pc_name b) (ts_tables (ps_set g))) as Q.
      destruct (find_table _ _ _) as [o|]; [|reflexivity]. exfalso. destruct Q as (i & NE & R & _).
      apply (NoDup_remove_2 _ _ _ D). apply in_or_app. left. rewrite <- R. apply nth_error_In in NE. rewrite ref_name_app by (rewrite Forall_forall in H; auto). now apply in_map. }
    assert (NB : ref_name (ps_heap g1) (Some (List.length (ps_heap g))) = pc_name b).
    { rewrite H1. unfold ref_name. rewrite tab_last. now apply (rt_name _ _ _ B). }
    destruct (IH g1) as (ts & g' & FTS & E' & X' & H' & S').
    + exact X1.
    + rewrite S1, H1. cbn [ts_tables]. apply Forall_app. split.
      * eapply Forall_impl; [|exact H]. intros o. apply in_heap_app.
      * constructor; [|constructor]. exists (List.length (ps_heap g)). split; [reflexivity|]. rewrite app_length. cbn. lia.
    + rewrite S1. cbn [ts_tables]. rewrite map_app. cbn [map]. rewrite NB, H1, ref_names_app by exact H. rewrite <- app_assoc. exact D.
    + exists (t :: ts), g'. split; [now constructor|]. split.
      { intros rest. cbn [flat_map]. rewrite <- !app_assoc. cbn [app]. rewrite E. apply E'. }
      split; [exact X'|]. split; [rewrite H', H1, <- app_assoc; reflexivity|].
      rewrite S', S1. cbn [ts_name ts_file ts_tables]. rewrite <- app_assoc, H1, app_length. cbn [List.length seq map app]. repeat f_equal; lia.
Qed.

Theorem pieces_roundtrip bs n h : Forall pc_ok bs -> NoDup (map pc_name bs) -> n = "" \/ ascii_name n ->
  exists ts, Forall2 pc_table bs ts /\
    NewTableSetFromString ((if n =? "" then "" else "[[" ++ n ++ "]]" ++ newline ++ newline) ++ String.concat newline (map (fun b => text_of (pc_lines b)) bs)) h
    = (h ++ ts, Ok (mkTS n "" (map Some (seq (List.length h) (List.length bs))))).
Proof.
  intros F D N. unfold NewTableSetFromString.
  assert (NL : Forall (Forall (fun l => has nl l = false)) (map pc_lines bs)).
  { apply Forall_forall. intros x I. apply in_map_iff in I as (b & <- & I). rewrite Forall_forall in F. apply (F b I). }
  assert (E : map (fun b => text_of (pc_lines b)) bs = map text_of (map pc_lines bs)) by now rewrite map_map. rewrite E. clear E.
  set (body := String.concat newline (map text_of (map pc_lines bs))).
  assert (K : forall g, ps_expecting g = TABLE_NAME -> ts_tables (ps_set g) = [] -> ps_heap g = h ->
     exists ts g', Forall2 pc_table bs ts /\ parse_lines (lines body) g = Ok g' /\ ps_heap g' = h ++ ts /\
       ps_set g' = mkTS (ts_name (ps_set g)) (ts_file (ps_set g)) (map Some (seq (List.length h) (List.length bs)))).
  { intros g X T H. destruct (read_pieces bs F g X) as (ts & g' & FT & E & X' & H' & S').
    - rewrite T. constructor.
    - rewrite T. exact D.
    - rewrite T, H in S'. cbn [app] in S'. rewrite H in H'. unfold body. rewrite lines_texts by exact NL.
      destruct bs as [|b bs].
      + inversion FT; subst. exists [], (with_expecting TABLE_NAME g). split; [constructor|]. cbn [map].
        specialize (E []). cbn in E. injection E as <-. split; [|split; auto].
        cbn [parse_lines]. unfold parse_line. change (TrimSpace "") with "". cbn match. rewrite X. reflexivity.
      + exists ts, g'. split; [exact FT|]. split; [|auto]. cbn [map].
        specialize (E []). rewrite app_nil_r in E. cbn [parse_rest] in E. rewrite <- E.
        assert (M : flat_map (fun x => x ++ [""]) (pc_lines b :: map pc_lines bs) = flat_map (fun b => pc_lines b ++ [""]) (b :: bs)).
        { clear. cbn [flat_map]. f_equal. induction bs as [|c bs IH]; cbn [map flat_map]; [reflexivity|]. now rewrite IH. }
        rewrite M. cbn [flat_map]. destruct (pc_lines b) as [|l0 l]; reflexivity. }
  destruct N as [->|A].
  - cbn [String.eqb append]. destruct (K (mkPS h (NewTableSet "") TABLE_NAME UNDEFINED_SHAPE false [] [] false None) eq_refl eq_refl eq_refl) as (ts & g' & FT & E & H & S).
    exists ts. split; [exact FT|]. rewrite E, H, S. reflexivity.
  - assert (NE : (n =? "") = false) by (destruct n; [destruct A|reflexivity]). rewrite NE.
    set (g1 := mkPS h (TS_SetName n (NewTableSet "")) TABLE_NAME UNDEFINED_SHAPE false [] [] true None).
    destruct (K g1 eq_refl eq_refl eq_refl) as (ts & g' & FT & E & H & S).
    exists ts. split; [exact FT|].
    assert (L : lines (("[[" ++ n ++ "]]" ++ newline ++ newline) ++ body) = ("[[" ++ n ++ "]]")%string :: "" :: lines body).
    { rewrite !app_str_assoc. rewrite <- (app_str_assoc n), <- (app_str_assoc "[["). rewrite lines_line.
      - change ((newline ++ body)%string) with ("" ++ newline ++ body)%string. rewrite lines_line by reflexivity. reflexivity.
      - apply graphic_word; [discriminate|]. pose proof (name_line_graphic n A) as Q. cbn [append all_c] in *. rewrite all_c_app in *. cbn [all_c andb] in *. rewrite !andb_true_iff in *. tauto. }
    rewrite L. cbn [parse_lines]. rewrite parse_set_name by auto. cbn [rbind ps_heap ps_set ps_expecting ps_shape ps_has_data ps_names ps_types ps_table].
    fold g1. unfold parse_line at 1. change (TrimSpace "") with "". cbn match. unfold g1 at 1. cbn [ps_expecting rbind]. change (with_expecting TABLE_NAME g1) with g1.
    destruct (lines body) as [|l0 l1] eqn:LB; [|rewrite E, H, S; reflexivity].
    exfalso. revert LB. destruct body; cbn; [discriminate|]. destruct (Ascii.eqb _ _); [discriminate|]. destruct (lines body); discriminate.
Qed.
