(** Props_Tree.v -- C54: printing tables and nests of tables; NewTreeTable. *)
From Coq Require Import ZArith NArith List String Ascii Bool SpecFloat Lia Relations.
From Verif Require Import Base Model_Names Model_Table Model_Sort Model_Copy Model_Ops Model_Heap Model_TableSet Model_Lex Model_Print Model_Parser Model_Json Model_Query Model_Nest.
From Verif Require Import Spec Spec_Sort Spec_Copy Spec_Heap Spec_Walk Spec_Equals Spec_Tree.
From Verif Require Import Proofs_Lib Proofs_Table Proofs_Pres Proofs_Heap Proofs_Frame Proofs_Nesting Proofs_Lex Proofs_Env Samples Proofs_Nest Proofs_Tree Proofs_StringNested.
From Verif Require Import Props_Heap Props_Walk Props_Equals.
Import ListNotations.
Local Open Scope string_scope.
Local Open Scope list_scope.

(** C54.  Every table can be printed, padded or not; so can every table set. *)
Theorem C54_printing_never_fails : forall ip h t, wf_table t ->
  (exists s, StringPadded ip h t = Ok s) /\ (exists s, StringUnpadded ip h t = Ok s).
Proof. intros ip h t W. split; [now apply StringPadded_total|now apply StringUnpadded_total]. Qed.

Theorem C54_printing_a_table_set_never_fails : forall ip h s, wf_heap h ->
  (exists x, TS_StringPadded ip h s = Ok x) /\ (exists x, TS_StringUnpadded ip h s = Ok x).
Proof.
  intros ip h s W. split.
  - unfold TS_StringPadded. destruct (rmap_total (ref_text (StringPadded ip h) h) (ts_tables s)) as [ys ->]; [|eexists; reflexivity].
    intros [p|] _; [|now exists ""]. apply StringPadded_total. exact (proj1 (tab_wf h p W)).
  - unfold TS_StringUnpadded. destruct (rmap_total (ref_text (StringUnpadded ip h) h) (ts_tables s)) as [ys ->]; [|eexists; reflexivity].
    intros [p|] _; [|now exists ""]. apply StringUnpadded_total. exact (proj1 (tab_wf h p W)).
Qed.

(** StringNested returns a text exactly when the nesting is finite; otherwise the stack
    overflows, however large it is. *)
Theorem C54_nested_text_exists_iff_no_cycle : forall ip h p, wf_heap h -> p < List.length h ->
  (~ circular h p -> forall fuel, List.length h <= fuel -> exists h' s, StringNested fuel ip (Some p) h = (h', Ok s))
  /\ (circular h p -> forall fuel, snd (StringNested fuel ip (Some p) h) = Panic).
Proof.
  intros ip h p W L. split.
  - intros N fuel F. unfold StringNested.
    destruct (nested_fine ip fuel h p (tname (tab h p)) "" W L (root_rest h p W) eq_refl) as [_ [[[s E] _]|[_ D]]].
    + destruct (stringNested_recursive fuel ip p (tname (tab h p)) "" h) as [h' o]. cbn [snd] in E. subst o. eauto.
    + exfalso. apply D. apply (deep_more h (List.length h)); [now apply heap_deep|exact F].
  - intros C fuel. unfold StringNested.
    destruct (nested_fine ip fuel h p (tname (tab h p)) "" W L (root_rest h p W) eq_refl) as [_ [[_ D]|[E _]]]; [|exact E].
    exfalso. now apply (deep_no_cycle h fuel p D).
Qed.

(** Whatever StringNested returns, it makes no tables and changes nothing but the names of tables
    below the printed one (a NilTable gets a name and so becomes a table). *)
Theorem C54_nested_text_changes_names_only : forall ip h p fuel, wf_heap h -> p < List.length h ->
  let h' := fst (StringNested fuel ip (Some p) h) in
  wf_heap h' /\ List.length h' = List.length h
  /\ (forall z, name_only (tab h z) (tab h' z))
  /\ (forall z, ~ below h p z -> nth_error h' z = nth_error h z).
Proof.
  intros ip h p fuel W L. cbv zeta. unfold StringNested.
  destruct (nested_fine ip fuel h p (tname (tab h p)) "" W L (root_rest h p W) eq_refl) as [[A B C D] _]. auto.
Qed.

(** Without nested tables it is the text of String and a line end, and nothing changes. *)
Theorem C54_nested_text_of_a_plain_table : forall ip h p fuel s, wf_heap h -> nested_in (rows (tab h p)) = [] -> 1 <= fuel ->
  StringPadded ip h (tab h p) = Ok s -> StringNested fuel ip (Some p) h = (h, Ok (s ++ newline)%string).
Proof.
  intros ip h p fuel s W N F S. destruct fuel as [|k]; [lia|]. now apply nested_none.
Qed.

(** For a flat nesting (tables one level down, each in one cell), the text is that of the table
    followed, column by column, by the text of each nested table under its new name: the old
    name, then __FROM_TABLE_ and the name of the table, _COL_ and the column, _row_ and the row. *)
Theorem C54_nested_text_of_a_flat_nesting : forall ip h p fuel, wf_heap h -> p < List.length h -> flat_nesting h p -> 2 <= fuel ->
  exists h' s0 blocks, StringNested fuel ip (Some p) h = (h', Ok (s0 ++ newline ++ String.concat "" blocks)%string)
  /\ StringPadded ip h (tab h p) = Ok s0
  /\ Forall2 (fun c b => exists (q : ptr) s, GetTableByColIndex (tab h p) (Z.of_nat (fst c)) (Z.of_nat (snd c)) = Ok (Some q)
       /\ StringPadded ip h (named (printed_name (tab h p) (tname (tab h q)) (fst c) (snd c)) (tab h q)) = Ok s
       /\ b = (s ++ newline)%string
       /\ tab h' q = named (printed_name (tab h p) (tname (tab h q)) (fst c) (snd c)) (tab h q))
     (nested_cells (tab h p)) blocks.
Proof.
  intros ip h p fuel W L FL F. destruct fuel as [|[|k]]; [lia|lia|].
  assert (Wp : wf_table (tab h p)) by exact (proj1 (tab_wf h p W)).
  destruct (StringPadded_total ip h (tab h p) Wp) as [s0 S0].
  destruct (flat_loop ip k h p W L FL (nested_cells (tab h p)) h (s0 ++ newline)%string (ren_refl p h W) (nested_cells_NoDup _) (incl_refl _) eq_refl (fun _ _ _ _ _ => eq_refl))
    as (h' & blocks & E & B & _).
  exists h', s0, blocks. split; [|split; [exact S0|exact B]].
  unfold StringNested. rewrite (nested_step ip (S k) h p _ _ s0 S0), table_cells_spec by exact Wp. rewrite E, app_str_assoc. reflexivity.
Qed.

(** The positions of the nested tables *)
Theorem C54_nested_cells : forall t c r, In (c, r) (nested_cells t) <-> c < List.length (cnames t) /\ r < List.length (rows t) /\ nth c (ctypes t) "" = "*Table".
Proof. exact nested_cells_In. Qed.

(** NewTreeTable succeeds exactly for a named table with a flat nesting and a depth that is not
    negative; what it then returns is the table itself, and no table has changed. *)
Theorem C54_new_tree_table : forall h p depth, wf_heap h -> p < List.length h ->
  exists h' r, NewTreeTable (Some p) depth h = (h', r)
  /\ (forall z, z < List.length h -> nth_error h' z = nth_error h z)
  /\ (is_nil (tab h p) = false /\ flat_nesting h p /\ (0 <= depth)%Z -> r = Ok (Some p))
  /\ (~ (is_nil (tab h p) = false /\ flat_nesting h p /\ (0 <= depth)%Z) -> r = Err).
Proof. intros h p depth W L. exact (NewTreeTable_spec h p depth W L). Qed.

(** ---------- what does not hold ---------- *)

(** "Tree" has a column with two nested tables: a named one and a NilTable. *)
Definition tree_history : list hop :=
  [ HNewTable "Tree"; HTab (Some 0) (OAppendCol "i" "int"); HTab (Some 0) (OAppendCol "kid" "*Table");
    HTab (Some 0) OAppendRow; HTab (Some 0) OAppendRow; HTab (Some 0) (OSet "int" "i" 0 (VInt KInt 7));
    HNewTable "Leaf"; HTab (Some 3) (OAppendCol "s" "string"); HTab (Some 3) OAppendRow;
    HTab (Some 0) (OSet "*Table" "kid" 0 (VTable (Some 3))) ].
Definition tree_heap : heap := Eval vm_compute in match play env0 tree_history [] with Some h => h | None => [] end.
Lemma tree_reachable : reachable env0 tree_heap.
Proof. eapply play_reachable; [apply reach_empty|]. instantiate (1 := tree_history). vm_compute. reflexivity. Qed.
Lemma tree_wf : wf_heap tree_heap.
Proof. apply (reachable_wf env0); [apply env0_ok|apply tree_reachable]. Qed.
Lemma tree_flat : flat_nesting tree_heap 0.
Proof.
  split.
  - replace (nested_in (rows (tab tree_heap 0))) with [3; 2] by reflexivity. repeat constructor; cbn; intuition discriminate.
  - replace (nested_in (rows (tab tree_heap 0))) with [3; 2] by reflexivity. intros q [<-|[<-|[]]]; reflexivity.
Qed.
Definition ip_all : Z -> bool := fun _ => true.

(** The comment of NewTreeTable promises that NilTables one level down are filled for depth 1:
    this one is still a NilTable. *)
Theorem C54_new_tree_table_fills_nil_tables_refuted : exists h p q, reachable env0 h /\ p < List.length h
  /\ GetTableByColIndex (tab h p) 1 1 = Ok (Some q) /\ is_nil (tab h q) = true
  /\ exists h', NewTreeTable (Some p) 1 h = (h', Ok (Some p)) /\ GetTableByColIndex (tab h' p) 1 1 = Ok (Some q) /\ is_nil (tab h' q) = true.
Proof.
  exists tree_heap, 0, 2. split; [apply tree_reachable|]. split; [cbn; lia|]. split; [reflexivity|]. split; [reflexivity|].
  eexists. split; [vm_compute; reflexivity|]. split; reflexivity.
Qed.

(** Printing is not free of effects: the nested tables have other names afterwards, the NilTable is
    not one any more, and printing again gives another text. *)
Theorem C54_nested_text_is_pure_refuted : exists h p fuel, reachable env0 h /\ p < List.length h /\ flat_nesting h p
  /\ exists h' s h'' s', StringNested fuel ip_all (Some p) h = (h', Ok s) /\ StringNested fuel ip_all (Some p) h' = (h'', Ok s')
     /\ (tname (tab h 3), tname (tab h' 3)) = ("Leaf", "Leaf__FROM_TABLE_Tree_COL_kid_row_0")
     /\ (is_nil (tab h 2), is_nil (tab h' 2)) = (true, false)
     /\ s <> s'.
Proof.
  exists tree_heap, 0, 2. split; [apply tree_reachable|]. split; [cbn; lia|]. split; [apply tree_flat|].
  eexists _, _, _, _. split; [vm_compute; reflexivity|]. split; [vm_compute; reflexivity|]. split; [reflexivity|]. split; [reflexivity|].
  intros E. apply (f_equal String.length) in E. vm_compute in E. discriminate.
Qed.

(** The text of a nest that is printed *)
Example C54_nonvacuous : wf_heap tree_heap /\ flat_nesting tree_heap 0 /\ nested_cells (tab tree_heap 0) = [(1, 0); (1, 1)]
  /\ snd (StringNested 2 ip_all (Some 0) tree_heap)
     = Ok (String.concat newline
         ["[Tree]"; "  i kid"; "int *Table"; "  7 [Leaf]"; "  0 []"; "";
          "[Leaf__FROM_TABLE_Tree_COL_kid_row_0]"; "s"; "string"; String dquote (String dquote ""); "";
          "[__FROM_TABLE_Tree_COL_kid_row_1]"; ""; ""]).
Proof. split; [apply tree_wf|]. split; [apply tree_flat|]. split; [reflexivity|]. vm_compute. reflexivity. Qed.
Example C54_nonvacuous_deep : wf_heap deep_heap /\ ~ circular deep_heap 0 /\ circular cyclic_heap 0.
Proof.
  split; [apply (reachable_wf env0); [apply env0_ok|apply deep_reachable]|]. split.
  - apply C34_tour_exists_iff_no_cycle; [apply (reachable_wf env0); [apply env0_ok|apply deep_reachable]|vm_compute; lia|].
    eexists. apply deep_visits.
  - exists 0. split; [apply rt_refl|]. apply t_step. apply nests_tab. vm_compute. now left.
Qed.

(** Axioms used by any theorem of this file. *)
Definition all_Props_Tree :=
  (@C54_printing_never_fails,
   @C54_printing_a_table_set_never_fails,
   @C54_nested_text_exists_iff_no_cycle,
   @C54_nested_text_changes_names_only,
   @C54_nested_text_of_a_plain_table,
   @C54_nested_text_of_a_flat_nesting,
   @C54_nested_cells,
   @C54_new_tree_table,
   @C54_new_tree_table_fills_nil_tables_refuted,
   @C54_nested_text_is_pure_refuted).
Print Assumptions all_Props_Tree.
