(** Props_Column.v -- C27: integers in the column of a text. *)
From Coq Require Import ZArith NArith List String Ascii Bool SpecFloat Lia.
From Verif Require Import Base Model_Names Model_Table Model_Heap Model_TableSet Model_Lex Model_Float Model_Time Model_Parser Spec Spec_Heap Spec_TableSet Spec_Text Spec_Decimal Spec_Document Spec_Grammar Spec_Refuse.
From Verif Require Import Proofs_Lib Proofs_Table Proofs_Heap Proofs_TableSet Proofs_Lex Proofs_Num Proofs_Parser Proofs_Lines Proofs_Block Proofs_Float Proofs_FloatText Proofs_Decimal Proofs_Document Proofs_Token Proofs_Grammar Proofs_Refuse
  Props_Parser Props_Grammar Props_Refuse Props_Decimal.
Import ListNotations.
Local Open Scope string_scope.
Local Open Scope list_scope.

Lemma literal_graphic k tok z : literal k tok z -> tok <> "" /\ all_c graphic tok = true /\ comment tok = false.
Proof.
  intros L. assert (W : forall s v, unsigned_literal s v -> s <> "" /\ all_c graphic s = true).
  { intros s v U. apply literal_word in U as [N A]. split; [exact N|]. revert A. apply all_c_impl. intros c C. now apply word_graphic. }
  assert (D : forall s v, numeral 10 s v -> all_c graphic s = true).
  { intros s v N. apply Proofs_FloatText.numeral_dec in N as (_ & A & _). revert A. apply all_c_impl. intros c C. apply word_graphic. unfold is_word. rewrite C. now rewrite orb_true_r. }
  assert (C : forall s v, unsigned_literal s v -> comment s = false).
  { intros s v U. apply literal_word in U as [_ A]. destruct s as [|c r]; [reflexivity|]. cbn [all_c] in A. apply andb_true_iff in A as [A _]. unfold comment. apply Ascii.eqb_neq. intros ->. discriminate A. }
  unfold literal in L. destruct (isigned k); [destruct L as [s v U|s v N|s v N]|].
  - destruct (W _ _ U). eauto.
  - split; [discriminate|]. split; [cbn [all_c]; rewrite (D _ _ N); reflexivity|reflexivity].
  - split; [discriminate|]. split; [cbn [all_c]; rewrite (D _ _ N); reflexivity|reflexivity].
  - destruct (W _ _ L). eauto.
Qed.
Lemma int_kind_type ct k : int_kind ct = Some k -> In ct all_types /\ ct <> "" /\ all_c graphic ct = true /\ comment ct = false.
Proof.
  intros I. assert (In ct all_types) as T.
  { apply str_in_In. unfold int_kind in I. repeat match type of I with context [(?a =? ?b)%string] => let Q := fresh in destruct (a =? b)%string eqn:Q; [apply String.eqb_eq in Q; subst; reflexivity|cbn [orb] in I] end. discriminate I. }
  split; [exact T|]. clear I. cbn in T. repeat (destruct T as [<-|T]; [split; [discriminate|split; vm_compute; reflexivity]|]). destruct T.
Qed.

(** C27.  A table with a column of integer literals, of any size: if all fit the type of the
    column, every cell is the number that the literal stands for; if one does not, the text is
    refused. *)
Theorem C27_column : forall ct k name col toks zs h, int_kind ct = Some k -> wf_heap h -> plain_name name -> plain_name col -> Forall2 (literal k) toks zs ->
  (Forall (fits k) zs -> exists h' p t, NewTableFromString (column_text name col ct toks) h = (h', Ok (Some p)) /\ nth_error h' p = Some t /\
      tname t = name /\ cnames t = [col] /\ ctypes t = [ct] /\ rows t = map (fun z => [VInt k z]) zs)
  /\ (~ Forall (fits k) zs -> snd (NewTableFromString (column_text name col ct toks) h) = Err).
Proof.
  intros ct k name col toks zs h I W Pn Pc F. destruct (int_kind_type ct k I) as (CT & CN & CG & CC).
  assert (G : Forall (fun l => l <> "" /\ all_c graphic l = true /\ comment l = false) (("[" ++ name ++ "]")%string :: col :: ct :: toks)).
  { apply Forall_cons; [|apply Forall_cons; [|apply Forall_cons]].
    - split; [discriminate|]. split; [now apply name_line_graphic, plain_ascii|reflexivity].
    - now apply plain_graphic.
    - auto.
    - clear - F. induction F as [|tok f toks fs N F IH]; constructor; eauto using literal_graphic. }
  assert (SG : significant (lines (column_text name col ct toks)) = ("[" ++ name ++ "]")%string :: col :: ct :: toks ++ [""]) by (unfold column_text; now rewrite significant_graphic by exact G).
  inversion G as [|? ? _ G1]; subst. inversion G1 as [|? ? (A1 & A2 & _) _]; subst. split.
  - intros FT. set (d := mkTD name [col] [ct] (map (fun z => [Value (VInt k z)]) zs) false).
    assert (SW : set_written (significant (lines (column_text name col ct toks))) None [d]).
    { rewrite SG. apply (sw_table d (col :: ct :: toks) [""] None []); [| |right; eauto|apply sw_blank, sw_end].
      - split; [exact Pn|]. split; [apply Forall_cons; [apply Pc|apply Forall_nil]|]. split; [repeat constructor; intros []|]. split; [apply Forall_cons; [exact CT|apply Forall_nil]|reflexivity].
      - apply bw_table; [reflexivity|apply words_one; now apply graphic_a_word..|]. cbn [td_types td_rows d]. clear - F FT I.
        revert FT. induction F as [|tok z toks zs N F IH]; intros FT; [constructor|]. inversion FT as [|? ? FZ FR]; subst. cbn [map]. constructor; [|now apply IH]. apply rw_one. now apply cw_int. }
    destruct (C60_one_table _ None d h W SW) as (h' & o & E & (p & t & -> & _ & N & _ & Tn & Cn & Ct & _ & R) & _). exists h', p, t. split; [exact E|]. split; [exact N|]. split; [exact Tn|]. split; [exact Cn|]. split; [exact Ct|].
    cbn [td_rows d] in R. clear - R. revert R. generalize (rows t). induction zs as [|f fs IH]; intros rs R; inversion R as [|? r ? rs' R1 R2]; subst; [reflexivity|].
    cbn [map]. f_equal; [|now apply IH]. inversion R1 as [|? v ? ? V R3]; subst. inversion R3; subst. cbn in V. now subst.
  - intros NF. assert (exists good gz tok z more, toks = good ++ tok :: more /\ Forall2 (literal k) good gz /\ Forall (fits k) gz /\ literal k tok z /\ ~ fits k z) as (good & gz & tok & z & more & -> & FG & FZ & LT & NZ).
    { clear - F NF. induction F as [|tok z toks zs L F IH]; [destruct NF; constructor|].
      assert (D : fits k z \/ ~ fits k z) by (unfold fits; destruct (isigned k); lia). destruct D as [D|D].
      - destruct IH as (good & gz & tok' & z' & more & -> & R); [intros X; apply NF; now constructor|]. exists (tok :: good), (z :: gz), tok', z', more. split; [reflexivity|].
        destruct R as (R1 & R2 & R3). split; [now constructor|]. split; [now constructor|exact R3].
      - exists [], [], tok, z, toks. repeat split; auto. }
    apply C62_one_table; [exact W|]. rewrite SG.
    replace (col :: ct :: (good ++ tok :: more) ++ [""]) with ((col :: ct :: good ++ [tok]) ++ more ++ [""]) by (cbn [app]; rewrite <- !app_assoc; reflexivity).
    apply sx_body; [exact Pn|intros []|].
    apply (bx_row [col] col [ct] ct good (map (fun z => [Value (VInt k z)]) gz) tok); [now apply words_one, graphic_a_word| | |now apply words_one, graphic_a_word| |reflexivity| |].
    + apply Forall_cons; [apply Pc|apply Forall_nil].
    + repeat constructor. intros [].
    + apply Forall_cons; [exact CT|apply Forall_nil].
    + clear - FG FZ I. revert FZ. induction FG as [|tok z toks zs N F IH]; intros FT; [constructor|]. inversion FT as [|? ? FZ FR]; subst. cbn [map]. constructor; [|now apply IH]. apply rw_one. now apply cw_int.
    + rewrite <- (app_str_nil_r tok). apply rx_cell; [|now left]. eapply cx_range; eauto.
Qed.
Example C27_column_nonvacuous : Forall2 (literal KInt8) ["-128"; "0x7f"; "+5"] [-128; 127; 5]%Z /\ Forall (fits KInt8) [-128; 127; 5]%Z
  /\ Forall2 (literal KInt8) ["-128"; "200"] [-128; 200]%Z /\ ~ Forall (fits KInt8) [-128; 200]%Z
  /\ snd (NewTableFromString (column_text "t" "x" "int8" ["-128"; "200"]) []) = Err.
Proof.
  assert (N1 : literal KInt8 "-128" (-128)) by (apply (lit_minus "128" 128); num).
  assert (F1 : Forall2 (literal KInt8) ["-128"; "200"] [-128; 200]%Z).
  { apply Forall2_cons; [exact N1|]. apply Forall2_cons; [|apply Forall2_nil]. apply lit_unsigned, lit_dec; [num|discriminate]. }
  assert (NF : ~ Forall (fits KInt8) [-128; 200]%Z). { intros F. inversion F as [|? ? _ F']; subst. inversion F' as [|? ? Q _]; subst. destruct Q as [_ Q]. vm_compute in Q. discriminate. }
  split; [|split; [|split; [exact F1|split; [exact NF|]]]].
  - apply Forall2_cons; [exact N1|]. apply Forall2_cons; [|apply Forall2_cons; [apply lit_plus; num|apply Forall2_nil]]. apply lit_unsigned.
    apply (lit_0x "0x" "7f" 127); [now left|]. apply (num_more 16 "7" 7 "f" 15); [apply num_one; exists 7; repeat split; auto|exists 15; repeat split; auto].
  - repeat (apply Forall_cons; [split; vm_compute; congruence|]). apply Forall_nil.
  - apply (C27_column "int8" KInt8 "t" "x" _ _ [] eq_refl wf_heap_nil ltac:(pn) ltac:(pn) F1). exact NF.
Qed.

(** Axioms used by any theorem of this file. *)
Definition all_Props_Column :=
  (@C27_column).
Print Assumptions all_Props_Column.
