(** Props_Layout.v -- C57: the layout of the padded text. *)
From Coq Require Import ZArith NArith List String Ascii Bool SpecFloat Lia.
From Verif Require Import Base Model_Names Model_Table Model_Heap Model_TableSet Spec Spec_Text Model_Lex Model_Float Model_Time Model_Parser Model_Print Spec_Layout
  Proofs_Lib Proofs_Table Proofs_Lex Proofs_Lines Proofs_Parser Proofs_Layout Proofs_Heap Props_Parser Props_Text.
Import ListNotations.
Local Open Scope string_scope.
Local Open Scope list_scope.

(** String() and StringPadded() of a table: after the line of the name there is a line for the
    names of the columns, a line for the types and a line for each row; the items of a column
    are equally wide and at the place [laid_out] says. *)
Theorem C57_layout : forall ip h t, wf_table t -> cnames t <> [] -> struct_shape t = false \/ 2 <= List.length (rows t) -> small_ints t ->
  exists grid, StringPadded ip h t = Ok (name_line (tname t) ++ grid_text grid)%string /\ laid_out ip h t grid.
Proof. exact layout. Qed.

(** ---------- every column begins at the same place in all lines ---------- *)

Lemma placed_width ip h ct ln v y : placed_value ip h false ct ln v y -> In ct all_types -> rune_count y = l_width ln.
Proof.
  intros P T. assert (X : forall s, placed_text false ct ln s y -> rune_count y = l_width ln).
  { intros s [A B]. destruct (in_dec string_dec ct ["int"; "uint"; "byte"; "int8"; "int16"; "int32"; "int64"; "uint8"; "uint16"; "uint32"; "uint64"; "float32"; "float64"]) as [D|D].
    - destruct (B D) as (k & _ & E). exact E.
    - destruct (A D) as (k & _ & E). exact E. }
  destruct v; cbn [placed_value] in P; try (destruct P as (q0 & _ & P); now apply (X q0)); destruct P as (k & u & z & _ & Y & _ & E & _); rewrite Y; exact E.
Qed.
Lemma placed_text_width ct ln s y : placed_text false ct ln s y -> rune_count y = l_width ln.
Proof.
  intros [A B]. destruct (in_dec string_dec ct ["int"; "uint"; "byte"; "int8"; "int16"; "int32"; "int64"; "uint8"; "uint16"; "uint32"; "uint64"; "float32"; "float64"]) as [D|D].
  - destruct (B D) as (k & _ & E). exact E.
  - destruct (A D) as (k & _ & E). exact E.
Qed.
Lemma equal_width ip h t grid i r line : wf_table t -> laid_out ip h t grid -> S i < List.length (cnames t) -> nth_error grid r = Some line ->
  rune_count (nth i line "") = rune_count (item_at grid 0 i).
Proof.
  intros W (LG & LL & P) L G.
  destruct (nth_error (cnames t) i) as [cn|] eqn:A; [|apply nth_error_None in A; lia].
  destruct (nth_error (ctypes t) i) as [ct|] eqn:B; [|apply nth_error_None in B; rewrite (wf_types_len t W) in B; lia].
  destruct (P i cn ct A B) as (ln & P0 & P1 & PC & _). replace (Nat.eqb (S i) (List.length (cnames t))) with false in * by (symmetry; apply Nat.eqb_neq; lia).
  assert (E : nth i line "" = item_at grid r i) by (unfold item_at; now rewrite (nth_error_nth _ _ [] G)).
  rewrite E, (placed_text_width _ _ _ _ P0). destruct r as [|[|r]]; [exact (placed_text_width _ _ _ _ P0)|exact (placed_text_width _ _ _ _ P1)|].
  assert (LR : r < List.length (rows t)) by (pose proof (nth_error_some_lt _ _ _ G); lia).
  destruct (nth_error (rows t) r) as [row|] eqn:R; [|apply nth_error_None in R; lia].
  destruct (nth_error row i) as [v|] eqn:V.
  2:{ apply nth_error_None in V. pose proof (wf_cells t W) as C. rewrite Forall_forall in C. pose proof (Forall2_len _ _ _ (C row (nth_error_In _ _ R))) as Q. rewrite (wf_types_len t W) in Q. lia. }
  eapply (placed_width ip h ct ln v); [exact (PC r row v R V)|]. pose proof (wf_types t W) as T. rewrite Forall_forall in T. exact (T ct (nth_error_In _ _ B)).
Qed.
Fixpoint before (i : nat) (l : list string) : string :=
  match i, l with S k, y :: r => (y ++ String " " (before k r))%string | _, _ => "" end.
Lemma before_split i : forall l, i < List.length l -> exists after, String.concat " " l = (before i l ++ nth i l "" ++ after)%string.
Proof.
  induction i as [|i IH]; intros [|y l] L; cbn [List.length] in L; try lia.
  - cbn [before nth append]. destruct l; [exists ""; cbn; now rewrite app_str_nil_r|]. eexists. cbn [String.concat]. reflexivity.
  - destruct (IH l ltac:(lia)) as (a & E). exists a. cbn [before nth]. destruct l as [|z l]; [cbn in L; lia|]. cbn [String.concat] in E |- *. rewrite E, app_str_assoc. reflexivity.
Qed.
Lemma before_count i : forall l m, List.length l = List.length m -> (forall j, j < i -> rune_count (nth j l "") = rune_count (nth j m "")) -> rune_count (before i l) = rune_count (before i m).
Proof.
  induction i as [|i IH]; intros [|y l] [|z m] L H; try discriminate; try reflexivity. cbn [before]. rewrite !count_space. rewrite (IH l m); [|cbn in L; congruence|].
  - specialize (H 0 ltac:(lia)). cbn [nth] in H. lia.
  - intros j J. exact (H (S j) ltac:(lia)).
Qed.
Theorem C57_columns_begin : forall ip h t grid i, wf_table t -> laid_out ip h t grid -> i < List.length (cnames t) ->
  exists n, forall line, In line grid -> exists left right, String.concat " " line = (left ++ nth i line "" ++ right)%string /\ rune_count left = n.
Proof.
  intros ip h t grid i W LO L. exists (rune_count (before i (nth 0 grid []))). intros line IL. pose proof LO as (LG & LL & _). rewrite Forall_forall in LL.
  destruct (before_split i line) as (a & E); [rewrite (LL line IL); exact L|]. exists (before i line), a. split; [exact E|].
  apply In_nth_error in IL as [r G]. apply before_count.
  - rewrite (LL line (nth_error_In _ _ G)). destruct grid as [|l0 grid]; [discriminate|]. cbn [nth]. symmetry. apply LL. now left.
  - intros j J. rewrite (equal_width ip h t grid j r line W LO ltac:(lia) G). reflexivity.
Qed.

(** ---------- a concrete case ---------- *)

Definition menu_text : string := text2
  "[Menu]~dish price stars note~string float64 int []byte~|soup| 2.5 3 [1 2]~|roast beef| 10.25 1000 []~|tea| 1 0 [255]~".
Definition menu : table := Eval vm_compute in tab (fst (NewTableFromString menu_text [])) 0.
Lemma menu_read : NewTableFromString menu_text [] = ([menu], Ok (Some 0)).
Proof. vm_compute. reflexivity. Qed.
Example C57_nonvacuous : wf_table menu /\ cnames menu <> [] /\ struct_shape menu = false /\ small_ints menu /\ List.length (rows menu) = 3 /\
  StringPadded yes [] menu = Ok (text2 "[Menu]~dish           price stars note~string       float64   int []byte~|soup|          2.5      3 [1 2]~|roast beef|   10.25  1000 []~|tea|           1.0      0 [255]~").
Proof.
  split; [exact (wf_read menu_text menu menu_read)|]. split; [discriminate|]. split; [reflexivity|]. split; [|split; [reflexivity|vm_compute; reflexivity]].
  unfold small_ints. each; try exact I; intros _; vm_compute; discriminate.
Qed.
Example C57_nonvacuous_wide : exists grid, StringPadded yes [] wide = Ok (name_line "Wide" ++ grid_text grid)%string /\ laid_out yes [] wide grid.
Proof.
  apply C57_layout; [apply wf_wide|discriminate|now left|]. unfold small_ints. each; try exact I; intros _; vm_compute; discriminate.
Qed.

(** ---------- the bound on integers is needed ---------- *)

Definition big_int : table := Eval vm_compute in tab (fst (NewTableFromString (text2 "[T]~i~int~9999999999999999~") [])) 0.
Lemma big_int_read : NewTableFromString (text2 "[T]~i~int~9999999999999999~") [] = ([big_int], Ok (Some 0)).
Proof. vm_compute. reflexivity. Qed.
Lemma big_int_text : StringPadded yes [] big_int = Ok (text2 "[T]~               i~             int~10000000000000000~").
Proof. vm_compute. reflexivity. Qed.
(** The number is printed as another one that does not fit into the column. *)
Theorem C57_large_int_refuted : exists t, wf_table t /\ cnames t = ["i"] /\ struct_shape t = false /\ rows t = [[VInt KInt 9999999999999999]] /\
  StringPadded yes [] t = Ok (text2 "[T]~               i~             int~10000000000000000~") /\
  ~ exists grid, StringPadded yes [] t = Ok (name_line (tname t) ++ grid_text grid)%string /\ laid_out yes [] t grid.
Proof.
  exists big_int. split; [exact (wf_read _ _ big_int_read)|]. split; [reflexivity|]. split; [reflexivity|]. split; [reflexivity|]. split; [exact big_int_text|].
  intros (grid & EG & LG & LL & P). cbn [rows List.length] in LG. destruct grid as [|l0 [|l1 [|l2 [|]]]]; try discriminate LG.
  rewrite Forall_forall in LL. pose proof (LL l2 ltac:(cbn; tauto)) as L2. cbn [cnames List.length] in L2. destruct l2 as [|y [|]]; try discriminate L2.
  destruct (P 0 "i" "int" eq_refl eq_refl) as (ln & _ & _ & PC & _). specialize (PC 0 _ _ eq_refl eq_refl). destruct PC as (s & CT & [_ PT]).
  vm_compute in CT. destruct PT as (k & EY & _); [cbn; tauto|]. cbn [item_at Nat.add nth] in EY. unfold item_at in EY. cbn [nth] in EY.
  assert (SE : s = "9999999999999999") by congruence. subst s y.
  assert (X : exists q, grid_text [l0; l1; [blanks k ++ "9999999999999999"]%string] = (q ++ String "9" (String nl ""))%string).
  { unfold grid_text. cbn [map String.concat]. exists (String.concat " " l0 ++ String nl "" ++ String.concat " " l1 ++ String nl "" ++ blanks k ++ "999999999999999")%string.
    rewrite !app_str_assoc. reflexivity. }
  destruct X as (q & X). rewrite X in EG. rewrite big_int_text in EG. change (tname big_int) with "T" in EG. assert (Z : text2 "[T]~               i~             int~10000000000000000~" = ((name_line "T" ++ q) ++ String "9" (String nl ""))%string) by (rewrite app_str_assoc; congruence).
  apply (f_equal srev) in Z. rewrite (srev_app_str (name_line "T" ++ q)) in Z. change (srev (String "9" (String nl ""))) with (String nl (String "9" "")) in Z. cbn [append] in Z.
  apply (f_equal (fun s => String.get 1 s)) in Z. cbn [String.get] in Z. vm_compute in Z. discriminate.
Qed.

(** Axioms used by any theorem of this file. *)
Definition all_Props_Layout :=
  (@C57_layout,
   @C57_columns_begin,
   @C57_large_int_refuted).
Print Assumptions all_Props_Layout.
