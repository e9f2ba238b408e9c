(** Props_Equals.v -- copying and comparing tables: C14, C15, and the Equals clause of C12. *)
From Coq Require Import ZArith NArith List String Ascii Bool SpecFloat Permutation Lia.
From Verif Require Import Base Model_Names Model_Table Model_Sort Model_Copy Model_Ops Model_Heap.
From Verif Require Import Spec Spec_Copy Spec_Sort Spec_Heap Spec_Walk Spec_Frame Spec_Equals.
From Verif Require Import Proofs_Lib Proofs_Table Proofs_Cells Proofs_Struct Proofs_Pres Proofs_Api Proofs_Api2 Samples Proofs_Copy Proofs_Env Proofs_Heap.
From Verif Require Import Proofs_Walk Proofs_Nesting Proofs_Frame Proofs_Equals Props_Heap Props_Walk.
Import ListNotations.
Local Open Scope string_scope.
Local Open Scope list_scope.

(** ---------- C15: Equals ---------- *)

(** For tables without nested-table cells, and whatever the recursion budget is, Equals
    does not panic and is true exactly for the same tables. *)
Theorem C15_Equals_exactly_the_same_tables : forall fuel h (p1 p2 : ptr), wf_heap h -> p1 < List.length h -> p2 < List.length h ->
  no_nested (tab h p1) -> no_nested (tab h p2) ->
  (same_table (tab h p1) (tab h p2) -> Equals (S fuel) h (Some p1) (Some p2) = Ok tt)
  /\ (~ same_table (tab h p1) (tab h p2) -> Equals (S fuel) h (Some p1) (Some p2) = Err).
Proof.
  intros fuel h p1 p2 WH L1 L2 N1 N2. destruct (tab_wf h p1 WH) as [W1 _], (tab_wf h p2 WH) as [W2 _].
  destruct (Equals_flat fuel h p1 p2 W1 W2 N1) as [P Q]. split; [apply Q|].
  intros H. destruct (Equals (S fuel) h (Some p1) (Some p2)) as [[]| |]; auto; [exfalso; apply H; now apply Q|congruence].
Qed.

Theorem C15_reflexive : forall fuel h (p : ptr), wf_heap h -> p < List.length h -> no_nested (tab h p) -> no_nan (tab h p) ->
  Equals (S fuel) h (Some p) (Some p) = Ok tt.
Proof.
  intros fuel h p WH L N NN. apply (C15_Equals_exactly_the_same_tables fuel h p p WH L L N N). apply same_table_refl; auto. apply (tab_wf h p WH).
Qed.
Theorem C15_symmetric : forall fuel h (p1 p2 : ptr), wf_heap h -> p1 < List.length h -> p2 < List.length h ->
  no_nested (tab h p1) -> no_nested (tab h p2) -> Equals (S fuel) h (Some p1) (Some p2) = Equals (S fuel) h (Some p2) (Some p1).
Proof.
  intros fuel h p1 p2 WH L1 L2 N1 N2. destruct (tab_wf h p1 WH) as [W1 _], (tab_wf h p2 WH) as [W2 _].
  destruct (Equals_flat fuel h p1 p2 W1 W2 N1) as [P Q], (Equals_flat fuel h p2 p1 W2 W1 N2) as [P' Q'].
  destruct (Equals (S fuel) h (Some p1) (Some p2)) as [[]| |]; [|destruct (Equals (S fuel) h (Some p2) (Some p1)) as [[]| |]; auto|congruence].
  - symmetry. apply Q'. apply same_table_sym. now apply Q.
  - apply Q. apply same_table_sym. now apply Q'.
  - congruence.
Qed.
Theorem C15_transitive : forall fuel h (p1 p2 p3 : ptr), wf_heap h -> p1 < List.length h -> p2 < List.length h -> p3 < List.length h ->
  no_nested (tab h p1) -> no_nested (tab h p2) -> no_nested (tab h p3) ->
  Equals (S fuel) h (Some p1) (Some p2) = Ok tt -> Equals (S fuel) h (Some p2) (Some p3) = Ok tt ->
  Equals (S fuel) h (Some p1) (Some p3) = Ok tt.
Proof.
  intros fuel h p1 p2 p3 WH L1 L2 L3 N1 N2 N3 E1 E2.
  destruct (tab_wf h p1 WH) as [W1 _], (tab_wf h p2 WH) as [W2 _], (tab_wf h p3 WH) as [W3 _].
  apply (proj2 (Equals_flat fuel h p1 p2 W1 W2 N1)) in E1. apply (proj2 (Equals_flat fuel h p2 p3 W2 W3 N2)) in E2.
  apply (proj2 (Equals_flat fuel h p1 p3 W1 W3 N1)). eapply same_table_trans; [exact W1|exact W2|eauto..].
Qed.

(** A nil table on either side is an error, not a panic. *)
Theorem C15_nil_table : forall fuel h o, Equals (S fuel) h None o = Err /\ Equals (S fuel) h o None = Err.
Proof. intros fuel h [p|]; split; reflexivity. Qed.

(** Sort keys, shape, parent and the order of columns do not matter. *)
Theorem C15_ignores_keys_shape_and_parent : forall fuel h (p1 p2 : ptr) ks b par, wf_heap h -> p1 < List.length h -> p2 < List.length h ->
  no_nested (tab h p1) -> no_nan (tab h p1) ->
  tab h p2 = with_skeys ks (with_shape b (with_parent par (tab h p1))) -> Equals (S fuel) h (Some p1) (Some p2) = Ok tt.
Proof.
  intros fuel h p1 p2 ks b par WH L1 L2 N1 NN E. destruct (tab_wf h p1 WH) as [W1 _], (tab_wf h p2 WH) as [W2 _].
  apply Equals_same_rows; auto; try (rewrite E; reflexivity). intros q I. unfold no_nested in N1. now rewrite N1 in I.
Qed.

(** The rows r of t, seen through a permutation of the columns. *)
Lemma permuted_same t t' order : wf_table t -> wf_table t' -> no_nan t -> tname t' = tname t ->
  Permutation order (zseq (List.length (cnames t))) ->
  cnames t' = permute order "" (cnames t) -> ctypes t' = permute order "" (ctypes t) -> rows t' = map (permute order VNil) (rows t) ->
  same_table t t'.
Proof.
  intros W W' NN EN PO EC ET ER.
  assert (OR : forall z, In z order <-> (0 <= z < ColCount t)%Z).
  { intros z. unfold ColCount. rewrite <- In_zseq. split; apply Permutation_in; auto. now symmetry. }
  assert (LT : List.length (ctypes t) = List.length (cnames t)) by apply (wf_types_len _ W).
  assert (NTH : forall {A} (d : A) l i z, nth_error order i = Some z -> nth_error (permute order d l) i = Some (nth (Z.to_nat z) l d)).
  { intros A d l i z H. now rewrite nth_error_permute, H. }
  assert (POS : forall c, (0 <= c < ColCount t)%Z -> exists i, nth_error order i = Some c /\ i < List.length (cnames t')).
  { intros c Hc. apply OR in Hc. apply In_nth_error in Hc as [i Hi]. exists i. split; auto. rewrite EC. unfold permute. rewrite map_length. eapply nth_error_some_lt; eauto. }
  assert (CT : forall cn ct, ColType t cn = Ok ct -> ColType t' cn = Ok ct).
  { intros cn ct H. apply (wf_ColType_iff t W) in H as (i & A & B). apply (wf_ColType_iff t' W').
    destruct (POS (Z.of_nat i)) as (j & Hj & _). { unfold ColCount. apply nth_error_some_lt in A. lia. }
    exists j. rewrite EC, ET, !(NTH _ _ _ _ _ Hj), Nat2Z.id. now rewrite (nth_error_nth _ _ _ A), (nth_error_nth _ _ _ B). }
  split; [auto|]. split; [unfold RowCount; rewrite ER, map_length; auto|]. split.
  - apply cols_both; auto. rewrite EC. unfold permute. rewrite map_length, (Permutation_length PO). unfold zseq. now rewrite map_length, seq_length.
  - intros cn r v w G1 G2. destruct (GetVal_ok t cn r v W G1) as (c & CA & Hr & G).
    enough (v = w) by (subst w; apply NN in G as [? ?]; now apply same_value_refl).
    destruct (POS c (col_at_range _ _ _ CA)) as (i & Hi & Li).
    assert (CA' : col_at t' (Z.of_nat i) cn).
    { split; [lia|]. rewrite Nat2Z.id, EC, (NTH _ _ _ _ _ Hi). destruct CA as [_ CA]. now rewrite (nth_error_nth _ _ _ CA). }
    rewrite (GetVal_col_at t' _ _ r W' CA') in G2.
    destruct (get_cell t c r W (col_at_range _ _ _ CA) Hr) as (_ & v0 & _ & _ & G0 & _ & A0). assert (v0 = v) by congruence. subst v0.
    destruct (get_cell t' (Z.of_nat i) r W') as (_ & w0 & _ & _ & G3 & _ & A1); [now apply (col_at_range t' _ cn)|unfold RowCount in *; rewrite ER, map_length; auto|].
    assert (w0 = w) by congruence. subst w0. unfold at_cell in A0, A1. rewrite ER, nth_error_map in A1.
    destruct (nth_error (rows t) (Z.to_nat r)) as [row|]; [|discriminate]. simpl in A1.
    rewrite Nat2Z.id, (NTH _ _ _ _ _ Hi), (nth_error_nth _ _ _ A0) in A1. congruence.
Qed.

(** Equals ignores the order of columns: a table made by reordering the columns of another
    one is equal to it. *)
Theorem C12_reordered_table_is_equal : forall fuel h (p1 p2 : ptr) order b, wf_heap h -> p1 < List.length h -> p2 < List.length h ->
  no_nested (tab h p1) -> no_nan (tab h p1) ->
  run (NewTableReorderColsByColIndex (tab h p1) order) b NewNilTable = (tab h p2, Ok tt) ->
  Equals (S fuel) h (Some p1) (Some p2) = Ok tt.
Proof.
  intros fuel h p1 p2 order b WH L1 L2 N1 NN R. destruct (tab_wf h p1 WH) as [W1 _], (tab_wf h p2 WH) as [W2 _].
  apply (Equals_flat fuel h p1 p2 W1 W2 N1).
  destruct (NewTableReorderColsByColIndex_spec (tab h p1) order b W1) as [(NT & PO & t' & l & E & FT & EC & ET & ER)|[_ (s' & E)]];
    apply run_eq in E; rewrite E in R; [|discriminate]. injection R as <-.
  apply (permuted_same _ t' order); auto; [apply (ft_wf _ _ FT)|apply (ft_name _ _ FT)].
Qed.
Theorem C15_ignores_column_order : forall fuel h (p1 p2 : ptr) order b, wf_heap h -> p1 < List.length h -> p2 < List.length h ->
  no_nested (tab h p1) -> no_nan (tab h p1) ->
  run (ReorderColsByColIndex order) b (tab h p1) = (tab h p2, Ok tt) ->
  Equals (S fuel) h (Some p1) (Some p2) = Ok tt.
Proof.
  intros fuel h p1 p2 order b WH L1 L2 N1 NN R. destruct (tab_wf h p1 WH) as [W1 _], (tab_wf h p2 WH) as [W2 _].
  apply (Equals_flat fuel h p1 p2 W1 W2 N1).
  destruct (ReorderColsByColIndex_eq order (mkS (tab h p1) b [])) as [[PO E]|[_ E]]; apply run_eq in E; rewrite E in R; [|discriminate].
  injection R as R. rewrite <- R in *. apply (permuted_same _ _ order); auto.
Qed.

(** The exceptions: with nested tables the columns are matched by position, so the order
    of columns matters; and comparing a circular nesting with itself never ends. *)
Definition nested_order_history : list hop :=
  [HNewTable "T"; HTab (Some 0) (OAppendCol "a" "*Table"); HTab (Some 0) (OAppendCol "b" "*Table"); HTab (Some 0) OAppendRow;
   HNewTable "X"; HTab (Some 0) (OSet "*Table" "a" 0%Z (VTable (Some 3)));
   HNewTableReorderColsByColIndex (Some 0) [1%Z; 0%Z]].
Definition nested_order_heap : heap := Eval vm_compute in match play env0 nested_order_history [] with Some h => h | None => [] end.
Lemma nested_order_reachable : reachable env0 nested_order_heap.
Proof. eapply play_reachable; [apply reach_empty|]. instantiate (1 := nested_order_history). vm_compute. reflexivity. Qed.
Theorem C15_nested_column_order_refuted : exists h, reachable env0 h
  /\ forall fuel, Equals (S (S fuel)) h (Some 0) (Some 0) = Ok tt /\ Equals (S (S fuel)) h (Some 0) (Some 4) = Err
  /\ GetVal (tab h 4) "a" 0 = GetVal (tab h 0) "a" 0 /\ GetVal (tab h 4) "b" 0 = GetVal (tab h 0) "b" 0.
Proof.
  exists nested_order_heap. split; [apply nested_order_reachable|]. intros fuel. repeat split; reflexivity.
Qed.
Theorem C15_circular_refuted : exists h, reachable env0 h /\ wf_heap h /\ forall fuel, Equals fuel h (Some 0) (Some 0) = Panic.
Proof.
  exists cyclic_heap. split; [apply cyclic_reachable|]. split; [eapply reachable_wf; [apply env0_ok|apply cyclic_reachable]|].
  induction fuel as [|fuel IH]; [reflexivity|].
  transitivity (let! _ := Equals fuel cyclic_heap (Some 0) (Some 0) in Ok tt); [|now rewrite IH].
  clear IH. cbn [Equals]. generalize (Equals fuel cyclic_heap). intros f. vm_compute. repeat match goal with |- context [f ?a ?b] => destruct (f a b) as [[]| |] end; reflexivity.
Qed.

(** Non-vacuity: two tables of a history that are equal, with different column order, keys
    and shape, and one that is not. *)
Definition equal_history : list hop :=
  [HNewTable "T"; HTab (Some 0) (OAppendCol "a" "float64"); HTab (Some 0) (OAppendCol "b" "[]byte"); HTab (Some 0) (OAppendRows 2);
   HTab (Some 0) (OSet "float64" "a" 1%Z (VFloat64 (SpecFloat.S754_zero true)));
   HNewTableReorderColsByColIndex (Some 0) [1%Z; 0%Z];
   HTab (Some 1) (OSetSortKeys ["a"]); HTab (Some 1) (OSet "float64" "a" 1%Z (VFloat64 (SpecFloat.S754_zero false)));
   HCopy (Some 0); HTab (Some 2) (OSetName "U")].
Definition equal_heap : heap := Eval vm_compute in match play env0 equal_history [] with Some h => h | None => [] end.
Lemma equal_reachable : reachable env0 equal_heap.
Proof. eapply play_reachable; [apply reach_empty|]. instantiate (1 := equal_history). vm_compute. reflexivity. Qed.
Example C15_nonvacuous : exists h, reachable env0 h /\ no_nested (tab h 0) /\ no_nan (tab h 0)
  /\ cnames (tab h 0) <> cnames (tab h 1) /\ rows (tab h 0) <> []
  /\ Equals 1 h (Some 0) (Some 1) = Ok tt /\ Equals 1 h (Some 0) (Some 2) = Err.
Proof.
  exists equal_heap. split; [apply equal_reachable|]. split; [reflexivity|]. split; [|repeat split; try reflexivity; discriminate].
  intros c r v G. assert (IV : In v (List.concat (rows (tab equal_heap 0)))).
  { rewrite get_at in G by (apply tab_wf; eapply reachable_wf; [apply env0_ok|apply equal_reachable]).
    destruct (_ && _)%Z; [|discriminate]. unfold at_cell in G.
    destruct (nth_error (rows _) _) as [row|] eqn:E1; [|discriminate]. destruct (nth_error row _) as [w|] eqn:E2; [|discriminate].
    injection G as ->. apply in_concat. exists row. split; eapply nth_error_In; eauto. }
  vm_compute in IV. repeat (destruct IV as [<-|IV]); [split; discriminate..|destruct IV].
Qed.

(** ---------- C14: Copy and CopyCols ---------- *)

Lemma HasCircularReference_eq h (p : ptr) : wf_heap h -> p < List.length h ->
  (flat_nesting h p /\ HasCircularReference h p = Ok false) \/ (~ flat_nesting h p /\ HasCircularReference h p = Ok true).
Proof.
  intros WH L. unfold HasCircularReference. pose proof (IsValidTableNesting_iff h p WH L) as I.
  pose proof (IsValidTableNesting_no_panic h p WH L). destruct (IsValidTableNesting h p) as [[]| |]; [left|right|congruence].
  - split; auto. now apply I.
  - split; auto. intros F. apply I in F. discriminate.
Qed.

(** Copy succeeds exactly for the tables that are no NilTable and whose nesting is flat
    (IsValidTableNesting accepts no other, see C33).  The copy is a new table with the same
    name, columns, types and cells; no existing table changes. *)
Theorem C14_Copy : forall h (p : ptr), wf_heap h -> p < List.length h ->
  (is_nil (tab h p) = false -> flat_nesting h p ->
     exists h' q, Copy p h = (h', Ok q) /\ List.length h <= q < List.length h'
       /\ fresh_table (tname (tab h p)) (tab h' q) /\ cnames (tab h' q) = cnames (tab h p) /\ ctypes (tab h' q) = ctypes (tab h p)
       /\ rows (tab h' q) = rows (tab h p)
       /\ forall z, z < List.length h -> nth_error h' z = nth_error h z)
  /\ (~ (is_nil (tab h p) = false /\ flat_nesting h p) -> Copy p h = (h, Err)).
Proof.
  intros h p WH L. destruct (tab_wf h p WH) as [W _]. unfold Copy.
  destruct (HasCircularReference_eq h p WH L) as [[F ->]|[NF ->]]; [|split; [contradiction|auto]].
  destruct (Copy_body_spec (tab h p) (S (List.length h)) W) as [(N & t' & l & E & FT & EC & ET & ER)|(N & s' & E)]; unfold new_tab; rewrite E.
  - split; [|tauto]. intros _ _. eexists _, _. split; [reflexivity|]. cbn [s_tab s_news].
    assert (TQ : tab (h ++ t' :: new_nils (List.length h) l) (List.length h) = t').
    { unfold tab. rewrite app_nth2 by lia. now rewrite Nat.sub_diag. }
    rewrite TQ. split; [rewrite app_length; simpl; lia|]. do 4 (split; [auto; fail|]). intros z Lz. now apply nth_app_old.
  - split; auto. intros; congruence.
Qed.

Theorem C14_CopyCols : forall h (p : ptr), wf_heap h -> p < List.length h ->
  (is_nil (tab h p) = false -> flat_nesting h p ->
     exists h' q, CopyCols p h = (h', Ok q) /\ List.length h <= q < List.length h'
       /\ fresh_table (tname (tab h p)) (tab h' q) /\ cnames (tab h' q) = cnames (tab h p) /\ ctypes (tab h' q) = ctypes (tab h p)
       /\ rows (tab h' q) = []
       /\ forall z, z < List.length h -> nth_error h' z = nth_error h z)
  /\ (~ (is_nil (tab h p) = false /\ flat_nesting h p) -> CopyCols p h = (h, Err)).
Proof.
  intros h p WH L. destruct (tab_wf h p WH) as [W _]. unfold CopyCols.
  destruct (HasCircularReference_eq h p WH L) as [[F ->]|[NF ->]]; [|split; [contradiction|auto]].
  destruct (CopyCols_body_spec (tab h p) (S (List.length h)) W) as [(N & t' & l & E & FT & EC & ET & ER)|(N & s' & E)]; unfold new_tab; rewrite E.
  - split; [|tauto]. intros _ _. eexists _, _. split; [reflexivity|]. cbn [s_tab s_news].
    assert (TQ : tab (h ++ t' :: new_nils (List.length h) l) (List.length h) = t').
    { unfold tab. rewrite app_nth2 by lia. now rewrite Nat.sub_diag. }
    rewrite TQ. split; [rewrite app_length; simpl; lia|]. do 4 (split; [auto; fail|]). intros z Lz. now apply nth_app_old.
  - split; auto. intros; congruence.
Qed.

(** Equals says that the copy is equal, when neither the table nor the tables nested in it
    hold NaN. *)
Theorem C14_copy_is_equal : forall fuel h (p : ptr) h' q, wf_heap h -> p < List.length h -> Copy p h = (h', Ok q) ->
  no_nan (tab h p) -> (forall z, In z (nested_in (rows (tab h p))) -> no_nan (tab h z)) ->
  Equals (S (S fuel)) h' (Some p) (Some q) = Ok tt /\ Equals (S (S fuel)) h' (Some q) (Some p) = Ok tt.
Proof.
  intros fuel h p h' q WH L E NN NZ.
  destruct (tab_wf h p WH) as [W _]. destruct (C14_Copy h p WH L) as [C1 C2].
  destruct (HasCircularReference_eq h p WH L) as [[F _]|[NF _]].
  2:{ rewrite C2 in E by tauto. discriminate. }
  destruct (is_nil (tab h p)) eqn:N. { rewrite C2 in E by (intros [? _]; discriminate). discriminate. }
  destruct (C1 eq_refl F) as (h2 & q2 & E2 & Lq & FT & EC & ET & ER & OLD). rewrite E in E2. injection E2 as <- <-.
  assert (TP : forall z, z < List.length h -> tab h' z = tab h z) by (intros z Lz; now apply tab_eq, OLD).
  assert (NE : forall z, In z (nested_in (rows (tab h p))) -> Equals (S fuel) h' (Some z) (Some z) = Ok tt).
  { intros z I. pose proof (nested_lt h p z WH I) as Lz. apply Equals_same_rows; auto; try (rewrite TP by auto; apply (tab_wf h z WH)).
    - rewrite TP by auto. auto.
    - rewrite TP by auto. destruct F as [_ F]. rewrite (F z I). intros y []. }
  assert (NQ : no_nan (tab h' q)).
  { intros c r v G. apply (NN c r). rewrite <- G. pose proof (ft_wf _ _ FT). rewrite !get_at by auto.
    unfold at_cell. now rewrite ER. }
  split; apply Equals_same_rows; rewrite ?(TP p L); auto; try apply (ft_wf _ _ FT); try apply (ft_name _ _ FT); try (symmetry; apply (ft_name _ _ FT)).
  rewrite ER. exact NE.
Qed.

(** Whatever is called later on other tables, the copy does not change; and whatever is
    called later on the copy, the original does not.  (CopyDeep, which writes to the tables
    it copies, is excluded: see C35.) *)
Theorem C14_copy_is_independent : forall E cs h (q : ptr),
  q < List.length h -> Forall (fun c => deep c = false /\ ~ In q (changes c)) cs ->
  nth_error (calls E cs h) q = nth_error h q.
Proof.
  intros E cs. induction cs as [|c cs IH]; intros h q L F; [reflexivity|].
  inversion F as [|? ? [D N] F1]; subst. change (calls E (c :: cs) h) with (calls E cs (fst (hexec E c h))).
  destruct (hexec_chg E c h D) as (L1 & FR & _). rewrite IH; auto. lia.
Qed.

(** The exceptions to independence that the property names: nested tables are shared. *)
Theorem C14_nested_tables_are_shared : forall h (p : ptr) h' q, wf_heap h -> p < List.length h -> Copy p h = (h', Ok q) ->
  nested_in (rows (tab h' q)) = nested_in (rows (tab h p)).
Proof.
  intros h p h' q WH L E. destruct (C14_Copy h p WH L) as [C1 C2].
  destruct (HasCircularReference_eq h p WH L) as [[F _]|[NF _]].
  2:{ rewrite C2 in E by tauto. discriminate. }
  destruct (is_nil (tab h p)) eqn:N. { rewrite C2 in E by (intros [? _]; discriminate). discriminate. }
  destruct (C1 eq_refl F) as (h2 & q2 & E2 & Lq & FT & EC & ET & ER & OLD). rewrite E in E2. injection E2 as <- <-. now rewrite ER.
Qed.

Example C14_nonvacuous : wf_heap history_heap
  /\ (exists h' q, Copy 0 history_heap = (h', Ok q) /\ rows (tab h' q) <> [] /\ nested_in (rows (tab h' q)) = [1; 2])
  /\ (exists h' q, CopyCols 0 history_heap = (h', Ok q) /\ cnames (tab h' q) <> [])
  /\ Copy 0 cyclic_heap = (cyclic_heap, Err).
Proof.
  split; [eapply reachable_wf; [apply env0_ok|apply history_reachable]|].
  split; [eexists _, _; split; [vm_compute; reflexivity|]; vm_compute; split; [discriminate|reflexivity]|].
  split; [eexists _, _; split; [vm_compute; reflexivity|]; vm_compute; discriminate|vm_compute; reflexivity].
Qed.

(** Axioms used by any theorem of this file. *)
Definition all_Props_Equals :=
  (@C15_Equals_exactly_the_same_tables,
   @C15_reflexive,
   @C15_symmetric,
   @C15_transitive,
   @C15_nil_table,
   @C15_ignores_keys_shape_and_parent,
   @C12_reordered_table_is_equal,
   @C15_ignores_column_order,
   @C15_nested_column_order_refuted,
   @C15_circular_refuted,
   @C14_Copy,
   @C14_CopyCols,
   @C14_copy_is_equal,
   @C14_copy_is_independent,
   @C14_nested_tables_are_shared).
Print Assumptions all_Props_Equals.
