(** Proofs_Heap.v -- every call preserves the well-formedness of all tables. *)
From Coq Require Import ZArith NArith List String Ascii Bool SpecFloat Permutation Lia.
From Verif Require Import Base Model_Names Model_Table Model_Sort Model_Copy Model_Merge Model_Ops Model_Heap.
From Verif Require Import Spec Spec_Sort Spec_Heap.
From Verif Require Import Proofs_Lib Proofs_Table Proofs_Cells Proofs_Struct Proofs_Api Proofs_Pres Proofs_Copy Proofs_Keys Samples.
Import ListNotations.
Local Open Scope string_scope.
Local Open Scope list_scope.

(** ---------- pres for the methods that read another table ---------- *)

Definition step_ok {A} (m : M A) (s : st) : Prop := good (fst (m s)) /\ grows s (fst (m s)).

Lemma pres_step b {A} (m : M A) : pres b m <-> forall s, s_base s = b -> good s -> step_ok m s.
Proof. unfold pres, step_ok. tauto. Qed.

Lemma step_SetVal cn ri v s : good s -> go_value v = true -> ptr_lt (next s) v -> step_ok (SetVal cn ri v) s.
Proof.
  intros GS G L. unfold step_ok.
  destruct (SetVal_eq cn ri v s (proj1 GS)) as [(i & ct & _ & _ & _ & H1 & H2 & ->)|[_ ->]]; simpl.
  - eapply good_written; eauto.
  - split; auto. apply grows_refl.
Qed.

Lemma wf_cell_go t ci ri v : wf_table t -> GetValByColIndex t ci ri = Ok v -> go_value v = true.
Proof.
  intros W H. destruct (HasRow t ri) eqn:HR.
  2:{ unfold GetValByColIndex in H. rewrite HR in H. destruct (is_nil t); discriminate. }
  destruct (HasColByColIndex t ci) eqn:HC.
  2:{ unfold GetValByColIndex in H. rewrite HC, HR in H. destruct (is_nil t); discriminate. }
  unfold GetValByColIndex in H. destruct (is_nil t); [discriminate|]. rewrite HR, HC in H. simpl in H.
  unfold cell in H. destruct (znth (rows t) ri) as [row|] eqn:R; [|discriminate].
  destruct (znth row ci) as [w|] eqn:C; [|discriminate]. injection H as ->.
  unfold znth in R, C. destruct (zidx ri _); [|discriminate]. destruct (zidx ci _); [|discriminate].
  pose proof (Forall_nth_error _ _ _ _ (wf_cells t W) R) as F.
  apply nth_error_In in C.
  clear - F C. induction F; simpl in C; [contradiction|]. destruct C as [->|C]; auto. apply H.
Qed.
Lemma ptrs_cell n t ci ri v : ptrs_lt n t -> GetValByColIndex t ci ri = Ok v -> ptr_lt n v.
Proof.
  intros P H. unfold GetValByColIndex in H. destruct (is_nil t); [discriminate|].
  destruct (HasRow t ri); [|discriminate]. destruct (HasColByColIndex t ci); [|discriminate]. simpl in H.
  unfold cell in H. destruct (znth (rows t) ri) as [row|] eqn:R; [|discriminate].
  destruct (znth row ci) as [w|] eqn:C; [|discriminate]. injection H as ->.
  unfold znth in R, C. destruct (zidx ri _); [|discriminate]. destruct (zidx ci _); [|discriminate].
  pose proof (Forall_nth_error _ _ _ _ P R) as F. simpl in F.
  apply (Forall_nth_error _ _ _ _ F C).
Qed.

(** [src] always yields a well-formed table whose pointers exist. *)
Definition src_ok (b : nat) (src : table -> table) : Prop :=
  forall s, s_base s = b -> good s -> wf_table (src (s_tab s)) /\ ptrs_lt (next s) (src (s_tab s)).
Lemma src_const b t : wf_table t -> ptrs_lt b t -> src_ok b (fun _ => t).
Proof. intros W P s Hs G. split; auto. eapply ptrs_lt_le; [|exact P]. subst. apply next_ge. Qed.
Lemma src_id b : src_ok b (fun t => t).
Proof. intros s _ G. exact G. Qed.

Lemma pres_on_err b {A} (m k : M A) : pres b m -> pres b k -> pres b (on_err m k).
Proof.
  intros H1 H2 s Hs G. unfold on_err. destruct (H1 s Hs G) as [G1 R1].
  destruct (m s) as [s' [a| |]]; simpl in *; auto.
  assert (Hs' : s_base s' = b) by (destruct R1; congruence).
  destruct (H2 s' Hs' G1) as [G2 R2]. split; auto. eapply grows_trans; eauto.
Qed.

Lemma pres_AppendColsFromTable b src : pres b (AppendColsFromTable src).
Proof.
  unfold AppendColsFromTable. pr. apply pres_on_err; pr.
Qed.

Lemma pres_AppendRowsFromTable b src f l : src_ok b src -> pres b (AppendRowsFromTable src f l).
Proof.
  intros S. unfold AppendRowsFromTable.
  apply pres_bind; [apply pres_get|intros t]. do 2 (apply pres_bind; [apply pres_check|intros _]).
  apply pres_mfor. intros k _. apply pres_bind; [apply pres_AppendRow|intros _].
  apply pres_bind; [apply pres_get|intros tk]. apply pres_mfor. intros ci _.
  apply pres_bind; [apply pres_reads|intros cn].
  intros s Hs G. unfold bind, reads. destruct (GetValByColIndex (src (s_tab s)) ci (f + k)) as [v| |] eqn:E; simpl.
  - destruct (S s Hs G) as [W P]. apply step_SetVal; auto; [eapply wf_cell_go; eauto|eapply ptrs_cell; eauto].
  - split; auto. apply grows_refl.
  - split; auto. apply grows_refl.
Qed.

#[export] Hint Resolve pres_AppendColsFromTable : pres.

Lemma pres_NewTableFromRows b t n f l : wf_table t -> ptrs_lt b t -> pres b (NewTableFromRows t n f l).
Proof. intros W P. unfold NewTableFromRows. pr. apply pres_AppendRowsFromTable. now apply src_const. Qed.
Lemma pres_NewTableFromRowsBySearchRange b E t n vs : wf_table t -> ptrs_lt b t ->
  pres b (NewTableFromRowsBySearchRange E t n vs).
Proof. intros W P. unfold NewTableFromRowsBySearchRange. pr. now apply pres_NewTableFromRows. Qed.
Lemma pres_CopyCols_body b t : pres b (CopyCols_body t).
Proof. unfold CopyCols_body. pr. Qed.
Lemma pres_Copy_body b t : wf_table t -> ptrs_lt b t -> pres b (Copy_body t).
Proof. intros W P. unfold Copy_body. pr. apply pres_AppendRowsFromTable. now apply src_const. Qed.

(** ---------- pres for every single-table call ---------- *)

Lemma ptr_below_lt n v : ptr_below n v = true -> ptr_lt n v.
Proof. destruct v; simpl; auto. destruct o; auto. intros H. now apply Nat.ltb_lt. Qed.

Lemma exec_pres b E o : env_ok E -> op_typed b o = true -> pres b (exec E o).
Proof.
  intros EO H. destruct o; cbn [op_typed exec] in *;
    repeat match goal with H : _ && _ = true |- _ => apply andb_true_iff in H; destruct H end;
    repeat match goal with
    | H : ptr_below _ _ = true |- _ => apply ptr_below_lt in H
    | H : str_in _ _ = true |- _ => apply str_in_In in H
    end; eauto using pres_SetName, pres_SetStructShape, pres_AppendRow, pres_AppendRows, pres_DeleteRow, pres_DeleteRows,
      pres_DeleteRowsAll, pres_AppendCol, pres_DeleteCol, pres_DeleteColByColIndex, pres_RenameCol,
      pres_RenameColByColIndex, pres_SetVal, pres_SetValByColIndex, pres_SetT, pres_SetTByColIndex,
      pres_SetCellToZeroValue, pres_SetCellToZeroValueByColIndex, pres_SetRowCellsToZeroValue,
      pres_SetColCellsToZeroValue, pres_SetColCellsToZeroValueByColIndex, pres_SetRowFloatCellsToNaN,
      pres_SetAllFloatCellsToNaN, pres_SetColFloatCellsToNaN, pres_SetColFloatCellsToNaNByColIndex,
      pres_SetFloatCellToNaN, pres_SetFloatCellToNaNByColIndex, pres_ReorderCols, pres_ReorderColsByColIndex,
      pres_Reverse, pres_Shuffle, pres_SetSortKeys, pres_SetSortKeysReverse, pres_AppendSortKey,
      pres_DeleteSortKey, pres_Sort, pres_SortSimple, pres_OrderColsBySortKeys.
Qed.

(** ---------- Merge ---------- *)

Lemma pres_copyTableCells b t k : wf_table t -> ptrs_lt b t -> pres b (copyTableCells t k).
Proof.
  intros W P. unfold copyTableCells. apply pres_mfor. intros ci _. apply pres_bind; [apply pres_lift|intros cn].
  apply pres_mfor. intros ri _.
  intros s Hs G. unfold bind, lift. destruct (GetValByColIndex t ci ri) as [v| |] eqn:E; simpl.
  - apply step_SetVal; auto; [eapply wf_cell_go; eauto|].
    eapply ptr_lt_le; [|eapply ptrs_cell; eauto]. subst. apply next_ge.
  - split; auto. apply grows_refl.
  - split; auto. apply grows_refl.
Qed.

Definition gv (s : st) (v : value) : Prop := go_value v = true /\ ptr_lt (next s) v.
Lemma gv_read s ci ri v : good s -> GetValByColIndex (s_tab s) ci ri = Ok v -> gv s v.
Proof. intros G H. split; [eapply wf_cell_go; [apply G|eauto]|eapply ptrs_cell; [apply G|eauto]]. Qed.
Lemma step_SetValByColIndex ci ri v s : good s -> gv s v -> step_ok (SetValByColIndex ci ri v) s.
Proof.
  intros GS [G L]. unfold step_ok.
  destruct (SetValByColIndex_eq ci ri v s (proj1 GS)) as [[(_ & _ & ct & _ & H1 & H2) ->]|[_ ->]]; simpl.
  - eapply good_written; eauto.
  - split; auto. apply grows_refl.
Qed.
Lemma step_ret {A} (a : A) s : good s -> step_ok (ret a) s.
Proof. intros G. split; auto. apply grows_refl. Qed.
Lemma step_bind_reads {A B} (f : table -> res A) (k : A -> M B) s : good s ->
  (forall a, f (s_tab s) = Ok a -> step_ok (k a) s) -> step_ok (bind (reads f) k) s.
Proof.
  intros G H. unfold step_ok, bind, reads. destruct (f (s_tab s)) eqn:E; simpl; [now apply H|..];
    (split; [auto|apply grows_refl]).
Qed.
(** String and bool values are never pointers. *)
Lemma has_type_plain ct v : (ct = "string" \/ ct = "bool") -> has_type ct v ->
  (ct = "string" /\ exists x, v = VString x) \/ (ct = "bool" /\ exists x, v = VBool x).
Proof.
  intros H HT. destruct v as [| | |k z| | | |[p|]| |]; simpl in HT; try contradiction; eauto.
  all: try (destruct k); subst; exfalso; intuition (subst; discriminate).
Qed.
Lemma step_SetT_plain ct ci ri v s : good s -> (ct = "string" \/ ct = "bool") -> has_type ct v -> step_ok (SetTByColIndex ct ci ri v) s.
Proof.
  intros G H HT. apply (pres_SetTByColIndex (s_base s) ct ci ri v); auto;
    destruct (has_type_plain ct v H HT) as [[-> [x ->]]|[-> [x ->]]]; try reflexivity; try exact I; now apply str_in_In.
Qed.

Lemma pres_merge_cell b ci r : pres b (merge_cell ci r).
Proof.
  unfold merge_cell. apply pres_bind; [apply pres_reads|intros ct].
  destruct ((ct =? "string") || (ct =? "bool")) eqn:E1;
    [|destruct (str_in ct _); [|destruct ((ct =? "float32") || (ct =? "float64")); [|apply pres_fail]]].
  - assert (HC : ct = "string" \/ ct = "bool").
    { apply orb_true_iff in E1. destruct E1 as [E|E]; apply String.eqb_eq in E; auto. }
    assert (IT : In ct all_types) by (destruct HC as [-> | ->]; now apply str_in_In).
    apply pres_step. intros s Hs G. apply step_bind_reads; auto. intros v1 V1. apply step_bind_reads; auto. intros v2 V2.
    assert (T1 : has_type ct v1).
    { destruct (GetTByColIndex_eq ct (s_tab s) ci r (proj1 G) IT) as [(x & _ & _ & _ & _ & E & w & W & HT)|[_ E]]; congruence. }
    assert (T2 : has_type ct v2).
    { destruct (GetTByColIndex_eq ct (s_tab s) ci (r + 1) (proj1 G) IT) as [(x & _ & _ & _ & _ & E & w & W & HT)|[_ E]]; congruence. }
    destruct (nonzero v1); [now apply step_SetT_plain|]. destruct (nonzero v2); [now apply step_SetT_plain|]. now apply step_ret.
  - apply pres_step. intros s Hs G. apply step_bind_reads; auto. intros v1 V1. apply step_bind_reads; auto. intros v2 V2.
    apply gv_read in V1, V2; auto.
    destruct (nonzero v1); [now apply step_SetValByColIndex|]. destruct (nonzero v2); [now apply step_SetValByColIndex|].
    now apply step_ret.
  - apply pres_step. intros s Hs G. apply step_bind_reads; auto. intros v1 V1. apply step_bind_reads; auto. intros v2 V2.
    apply gv_read in V1, V2; auto.
    repeat match goal with |- step_ok (if ?c then _ else _) _ => destruct c end;
      try (now apply step_SetValByColIndex); now apply step_ret.
Qed.

Lemma pres_SetT_int b cn ri z : go_value (VInt KInt z) = true -> pres b (SetT "int" cn ri (VInt KInt z)).
Proof. intros H. apply pres_SetT; auto. now apply str_in_In. exact I. Qed.
Lemma pres_SetT_bool b cn ri x : pres b (SetT "bool" cn ri (VBool x)).
Proof. apply pres_SetT; auto. now apply str_in_In. exact I. Qed.
#[export] Hint Resolve pres_merge_cell pres_SetT_bool pres_AppendCol pres_AppendRows pres_SetAllFloatCellsToNaN
  pres_SetSortKeysFromTable pres_OrderColsBySortKeys pres_AppendSortKey pres_DeleteSortKey pres_SetSortKeys
  pres_DeleteRows pres_DeleteCol : pres.
Lemma pres_merge_row b E ri : pres b (merge_row E ri).
Proof. unfold merge_row. pr. Qed.

Lemma pres_merge_body b E t1 t2 : env_ok E -> wf_table t1 -> wf_table t2 -> ptrs_lt b t1 -> ptrs_lt b t2 ->
  pres b (merge_body E t1 t2).
Proof.
  intros EO W1 W2 P1 P2. unfold merge_body.
  repeat first [ solve [auto using pres_copyTableCells, pres_Sort, pres_merge_row, pres_SetT_int with pres]
    | match goal with
      | |- pres _ (bind _ _) => apply pres_bind; [|intros ?]
      | |- pres _ (mfor _ _) => apply pres_mfor; intros ? ?
      end ].
Qed.

(** ---------- the heap ---------- *)

Definition wfh (n : nat) (h : heap) : Prop :=
  Forall wf_table h /\ Forall (ptrs_lt n) h /\ Forall (fun t => forall q, parent t = Some q -> q < n) h.

Lemma nested_lt n t : ptrs_lt n t <-> forall q, In q (nested_in (rows t)) -> q < n.
Proof.
  unfold ptrs_lt, nested_in. split.
  - intros F q H. apply in_flat_map in H as (r & R & H). apply in_flat_map in H as (v & V & H).
    rewrite Forall_forall in F. specialize (F r R). rewrite Forall_forall in F. specialize (F v V).
    destruct v as [| | | | | | |[p|]| |]; simpl in *; try contradiction. destruct H; [subst; auto|contradiction].
  - intros H. apply Forall_forall. intros r R. apply Forall_forall. intros v V.
    destruct v as [| | | | | | |[p|]| |]; simpl; auto. apply H.
    apply in_flat_map. exists r. split; auto. apply in_flat_map. exists (VTable (Some p)). split; simpl; auto.
Qed.

Lemma wfh_heap h : wfh (List.length h) h <-> wf_heap h.
Proof.
  split.
  - intros (A & B & C). constructor; auto.
    + intros p t q Hp. apply nested_lt. apply (Forall_nth_error _ _ _ _ B Hp).
    + intros p t q Hp. apply (Forall_nth_error _ _ _ _ C Hp).
  - intros [A B C]. split; [auto|split]; apply Forall_forall; intros t H; apply In_nth_error in H as [p Hp].
    + apply nested_lt. eauto.
    + eauto.
Qed.

Lemma wfh_le n m h : n <= m -> wfh n h -> wfh m h.
Proof.
  intros L (A & B & C). split; [auto|split].
  - eapply Forall_impl; [|exact B]. intros t. now apply ptrs_lt_le.
  - eapply Forall_impl; [|exact C]. intros t H q Hq. specialize (H q Hq). lia.
Qed.
Lemma wfh_app n a b : wfh n a -> wfh n b -> wfh n (a ++ b).
Proof. intros (A & B & C) (A' & B' & C'). repeat split; apply Forall_app; auto. Qed.
Lemma wfh_cons n t h : wf_table t -> ptrs_lt n t -> (forall q, parent t = Some q -> q < n) -> wfh n h -> wfh n (t :: h).
Proof. intros H1 H2 H3 (A & B & C). repeat split; constructor; auto. Qed.
Lemma wfh_upd n h p t : wfh n h -> wf_table t -> ptrs_lt n t -> (forall q, parent t = Some q -> q < n) -> wfh n (upd h p t).
Proof. intros (A & B & C) H1 H2 H3. repeat split; apply Forall_upd; auto. Qed.
Lemma wfh_nils n p l : p < n -> wfh n (new_nils p l).
Proof.
  intros H. induction l as [|b l IH]; simpl; [repeat split; constructor|].
  apply wfh_cons; auto.
  - apply wf_parent. apply wf_NewNilTable.
  - constructor.
  - simpl. destruct b; intros q Hq; inversion Hq; subst; auto.
Qed.

Lemma upd_length {A} (l : list A) : forall i x, List.length (upd l i x) = List.length l.
Proof. induction l; destruct i; simpl; auto. Qed.

Lemma wfh_nth n h p t : wfh n h -> nth_error h p = Some t -> wf_table t /\ ptrs_lt n t /\ (forall q, parent t = Some q -> q < n).
Proof.
  intros (A & B & C) H. split; [|split].
  - apply (Forall_nth_error _ _ _ _ A H).
  - apply (Forall_nth_error _ _ _ _ B H).
  - apply (Forall_nth_error _ _ _ _ C H).
Qed.

Definition wf_step {A} (f : heap -> heap * res A) (h : heap) : Prop :=
  wf_heap (fst (f h)) /\ List.length h <= List.length (fst (f h)).

Lemma on_heap_wf {A} p (m : M A) h : wf_heap h -> pres (List.length h) m -> wf_step (on_heap p m) h.
Proof.
  intros WH PM. unfold wf_step, on_heap. destruct (nth_error h p) as [t|] eqn:E; [|simpl; auto].
  apply wfh_heap in WH. destruct (wfh_nth _ _ _ _ WH E) as (W & P & Q).
  assert (G : good (mkS t (List.length h) [])).
  { split; auto. unfold next. simpl. now rewrite Nat.add_0_r. }
  destruct (PM (mkS t (List.length h) []) eq_refl G) as [G' (B' & PA & l & L)].
  destruct (m (mkS t (List.length h) [])) as [s r]. simpl in *. subst l.
  assert (LP : p < List.length h) by (apply nth_error_Some; congruence).
  rewrite app_length, upd_length, <- wfh_heap. split; [|lia].
  unfold new_nils. rewrite app_length, map_length, upd_length.
  destruct G' as [W' P']. unfold next in P'. rewrite B' in P'.
  apply wfh_app; [|apply wfh_nils; lia].
  apply wfh_upd; auto.
  - eapply wfh_le; [|exact WH]. lia.
  - rewrite PA. intros q Hq. specialize (Q q Hq). lia.
Qed.

Lemma new_tab_wf m h : wf_heap h -> pres (S (List.length h)) m -> wf_step (new_tab m) h.
Proof.
  intros WH PM. unfold wf_step, new_tab.
  assert (G : good (mkS NewNilTable (S (List.length h)) [])).
  { split; [apply wf_NewNilTable|]. constructor. }
  destruct (PM (mkS NewNilTable (S (List.length h)) []) eq_refl G) as [G' (B' & PA & l & L)].
  destruct (m (mkS NewNilTable (S (List.length h)) [])) as [s r]. simpl in *. subst l.
  destruct r; simpl; auto.
  rewrite app_length. simpl. split; [|lia].
  rewrite <- wfh_heap in *. rewrite app_length. simpl. unfold new_nils at 1. rewrite map_length.
  destruct G' as [W' P']. unfold next in P'. rewrite B' in P'.
  apply wfh_app; [eapply wfh_le; [|exact WH]; lia|].
  apply wfh_cons; auto.
  - eapply ptrs_lt_le; [|exact P']. lia.
  - rewrite PA. intros q Hq. discriminate.
  - apply wfh_nils. lia.
Qed.

Lemma new_tab_ok m h h' p : new_tab m h = (h', Ok p) -> p = List.length h /\ p < List.length h'.
Proof.
  unfold new_tab. destruct (m _) as [s [u| |]]; intros H; inversion H; subst. rewrite app_length. simpl. split; lia.
Qed.

Lemma tab_wf h p : wf_heap h -> wf_table (tab h p) /\ ptrs_lt (List.length h) (tab h p).
Proof.
  intros WH. unfold tab. destruct (nth_error h p) as [t|] eqn:E.
  - rewrite (nth_error_nth _ _ _ E). apply wfh_heap in WH. destruct (wfh_nth _ _ _ _ WH E) as (A & B & _). auto.
  - rewrite nth_overflow by (now apply nth_error_None). split; [apply wf_NewNilTable|constructor].
Qed.
Lemma ptrs_S n t : ptrs_lt n t -> ptrs_lt (S n) t.
Proof. apply ptrs_lt_le. lia. Qed.

Lemma set_parent_wf q p h : wf_heap h -> p < List.length h -> wf_heap (set_parent q p h) /\ List.length (set_parent q p h) = List.length h.
Proof.
  intros WH H. unfold set_parent. rewrite upd_length. split; auto.
  destruct (tab_wf h q WH) as [W P]. apply wfh_heap. apply wfh_heap in WH. rewrite upd_length.
  apply wfh_upd; auto.
  - now apply wf_parent.
  - simpl. intros x Hx. inversion Hx; subst; auto.
Qed.

(** ---------- Copy, CopyDeep, Merge on the heap ---------- *)

Lemma new_tab_wf' m h : wf_heap h ->
  (forall s u, m (mkS NewNilTable (S (List.length h)) []) = (s, Ok u) ->
     wf_table (s_tab s) /\ ptrs_lt (S (List.length h)) (s_tab s) /\ parent (s_tab s) = None) ->
  wf_step (new_tab m) h.
Proof.
  intros WH H. unfold wf_step, new_tab.
  destruct (m (mkS NewNilTable (S (List.length h)) [])) as [s r]. destruct r as [u| |]; simpl; auto.
  destruct (H s u eq_refl) as (W & P & PA).
  rewrite app_length. simpl. split; [|lia].
  rewrite <- wfh_heap in *. rewrite app_length. simpl. unfold new_nils at 1. rewrite map_length.
  apply wfh_app; [eapply wfh_le; [|exact WH]; lia|].
  apply wfh_cons; auto.
  - eapply ptrs_lt_le; [|exact P]. lia.
  - rewrite PA. discriminate.
  - apply wfh_nils. lia.
Qed.

Lemma reorder_wf t order h : wf_table t -> ptrs_lt (List.length h) t -> wf_heap h ->
  wf_step (new_tab (NewTableReorderColsByColIndex t order)) h.
Proof.
  intros W P WH. apply new_tab_wf'; auto. intros s u E.
  destruct (NewTableReorderColsByColIndex_spec t order (S (List.length h)) W) as [(_ & _ & t' & l & E' & FT & _ & _ & R)|(_ & s' & E')];
    rewrite E' in E; [|discriminate]. injection E as <- <-. simpl.
  split; [apply FT|]. split; [|apply FT]. unfold ptrs_lt. rewrite R. apply Forall_map.
  eapply Forall_impl; [|exact P]. intros row F. apply Forall_permute; [|exact I].
  eapply Forall_impl; [|exact F]. intros v. apply ptr_lt_le. lia.
Qed.
Lemma reorder_names_wf t names h : wf_table t -> ptrs_lt (List.length h) t -> wf_heap h ->
  wf_step (new_tab (NewTableReorderCols t names)) h.
Proof.
  intros W P WH. apply new_tab_wf'; auto. intros s u E.
  destruct (NewTableReorderCols_spec t names (S (List.length h)) W) as [(_ & _ & order & t' & l & _ & E' & FT & _ & _ & R)|(_ & s' & E')];
    rewrite E' in E; [|discriminate]. injection E as <- <-. simpl.
  split; [apply FT|]. split; [|apply FT]. unfold ptrs_lt. rewrite R. apply Forall_map.
  eapply Forall_impl; [|exact P]. intros row F. apply Forall_permute; [|exact I].
  eapply Forall_impl; [|exact F]. intros v. apply ptr_lt_le. lia.
Qed.

Lemma Copy_wf p h : wf_heap h -> wf_step (Copy p) h.
Proof.
  intros WH. destruct (tab_wf h p WH) as [W P]. unfold wf_step, Copy.
  destruct (HasCircularReference h p) as [[]| |]; simpl; auto.
  apply new_tab_wf; auto. apply pres_Copy_body; auto. now apply ptrs_S.
Qed.
Lemma CopyCols_wf p h : wf_heap h -> wf_step (CopyCols p) h.
Proof.
  intros WH. unfold wf_step, CopyCols.
  destruct (HasCircularReference h p) as [[]| |]; simpl; auto.
  apply new_tab_wf; auto. apply pres_CopyCols_body; auto.
Qed.
Lemma Copy_ok p h h' q : Copy p h = (h', Ok q) -> q = List.length h /\ q < List.length h'.
Proof.
  unfold Copy. destruct (HasCircularReference h p) as [[]| |]; intros H; try discriminate. eapply new_tab_ok; eauto.
Qed.

Lemma SetTableByColIndex_wf p ci ri q h : wf_heap h -> p < List.length h -> q < List.length h ->
  wf_step (SetTableByColIndex p ci ri (Some q)) h.
Proof.
  intros WH Hp Hq. unfold wf_step, SetTableByColIndex.
  destruct (set_parent_wf q p h WH Hp) as [W L].
  destruct (on_heap_wf p (SetTByColIndex "*Table" ci ri (VTable (Some q))) (set_parent q p h) W) as [A B].
  - rewrite L. apply pres_SetTByColIndex; auto. now apply str_in_In.
  - split; auto. etransitivity; [|exact B]. now rewrite L.
Qed.

(** ---------- walks ---------- *)

Definition wgood {X A} (b : nat) (Q : X -> nat -> Prop) (m : W X A) : Prop :=
  forall s, b <= List.length (w_heap s) -> wf_heap (w_heap s) -> Q (w_x s) (List.length (w_heap s)) ->
    wf_heap (w_heap (fst (m s))) /\ List.length (w_heap s) <= List.length (w_heap (fst (m s)))
    /\ Q (w_x (fst (m s))) (List.length (w_heap (fst (m s)))).

Lemma wgood_le {X A} b b' (Q : X -> nat -> Prop) (m : W X A) : b <= b' -> wgood b Q m -> wgood b' Q m.
Proof. intros L H s Hs. apply H. lia. Qed.
Lemma wgood_id {X A} b Q (m : W X A) : (forall s, fst (m s) = s) -> wgood b Q m.
Proof. intros H s _ WH HQ. rewrite H. auto. Qed.
Lemma wgood_bind {X A B} b Q (m : W X A) (f : A -> W X B) : wgood b Q m ->
  (forall a, wgood b Q (f a)) -> wgood b Q (wbind m f).
Proof.
  intros H1 H2 s Hs WH HQ. unfold wbind. destruct (H1 s Hs WH HQ) as (A1 & A2 & A3).
  destruct (m s) as [s' [a| |]]; simpl in *; auto.
  assert (Hs' : b <= List.length (w_heap s')) by lia.
  destruct (H2 a s' Hs' A1 A3) as (B1 & B2 & B3). split; [auto|split; [lia|auto]].
Qed.
Lemma wgood_wfor {X A} b Q (l : list A) (body : A -> W X unit) : (forall x, wgood b Q (body x)) -> wgood b Q (wfor l body).
Proof.
  intros H. induction l; simpl; [apply wgood_id; auto|]. apply wgood_bind; auto.
Qed.

(** The pointer read from a cell of a table of a well-formed heap exists. *)
Lemma GetTableByColIndex_lt h p ci ri q : wf_heap h -> GetTableByColIndex (tab h p) ci ri = Ok (Some q) -> q < List.length h.
Proof.
  intros WH. destruct (tab_wf h p WH) as [W P]. unfold GetTableByColIndex.
  destruct (GetTByColIndex "*Table" (tab h p) ci ri) as [v| |] eqn:E; simpl; try discriminate.
  destruct (GetTByColIndex_eq "*Table" (tab h p) ci ri W) as [(ct & _ & _ & _ & _ & E' & w & G & _)|[_ E']]; try congruence.
  { now apply str_in_In. }
  rewrite E in E'. rewrite G in E'. injection E' as ->. apply (ptrs_cell _ _ _ _ _ P) in G.
  destruct w as [| | | | | | |[x|]| |]; simpl; intros H; try discriminate. injection H as ->. exact G.
Qed.

Lemma wgood_wlift {X A} b Q (r : res A) : wgood b Q (@wlift X A r).
Proof. apply wgood_id. auto. Qed.
Lemma wgood_wtab {X} b Q p : wgood b Q (@wtab X p).
Proof. apply wgood_id. auto. Qed.

Definition wout {X A} (Q : X -> nat -> Prop) (n : nat) (r : wst X * res A) : Prop :=
  wf_heap (w_heap (fst r)) /\ n <= List.length (w_heap (fst r)) /\ Q (w_x (fst r)) (List.length (w_heap (fst r))).
Lemma wgood_wtab_bind {X A} b (Q : X -> nat -> Prop) p (f : table -> W X A) :
  (forall s, b <= List.length (w_heap s) -> wf_heap (w_heap s) -> Q (w_x s) (List.length (w_heap s)) ->
     wout Q (List.length (w_heap s)) (f (tab (w_heap s) p) s)) ->
  wgood b Q (do* t := wtab p in f t).
Proof. intros H s. apply H. Qed.

Lemma Walk_good {X} (Q : X -> nat -> Prop) nested (vT : ptr -> W X unit) vR vC fuel :
  (forall p, wgood (S p) Q (vT p)) -> (forall p ri, wgood (S p) Q (vR p ri)) ->
  (forall i, wgood (S (ci_tab i)) Q (vC i)) ->
  forall p, wgood (S p) Q (Walk fuel nested vT vR vC p).
Proof.
  intros HT HR HC. induction fuel as [|fuel IH]; intros p; simpl; [apply wgood_wlift|].
  apply wgood_bind; [apply HT|intros _]. apply wgood_bind; [apply wgood_wtab|intros t].
  apply wgood_wfor. intros ri. apply wgood_bind; [apply HR|intros _].
  apply wgood_bind; [apply wgood_wtab|intros t']. apply wgood_wfor. intros ci.
  apply wgood_wtab_bind. intros s Hs WH HQ. cbn zeta.
  unfold wbind at 1. unfold wlift at 1.
  destruct (GetCellInfoByColIndex p (tab (w_heap s) p) ci ri) as [info| |] eqn:EI; [|unfold wout; simpl; auto..].
  assert (CT : ci_tab info = p).
  { unfold GetCellInfoByColIndex in EI. destruct (znth _ _); [|discriminate].
    destruct (ColName _ _); simpl in EI; try discriminate. injection EI as <-. reflexivity. }
  assert (HV : wgood (S p) Q (vC info)) by (rewrite <- CT; apply HC).
  unfold wbind at 1. destruct (HV s Hs WH HQ) as (A1 & A2 & A3).
  destruct (vC info s) as [s1 [u| |]]; simpl in A1, A2, A3; [|unfold wout; simpl; auto..].
  destruct (nested && (ci_type info =? "*Table")) eqn:EN; [|unfold wout; simpl; auto].
  unfold wbind at 1. unfold wtab at 1. unfold wbind at 1. unfold wlift at 1.
  destruct (GetTableByColIndex (tab (w_heap s1) p) ci ri) as [[q|]| |] eqn:EG; [|unfold wout; simpl; auto..].
  apply GetTableByColIndex_lt in EG; auto.
  assert (L1 : S q <= List.length (w_heap s1)) by lia.
  assert (forall m : W X unit, (forall s, fst (m s) = s \/ fst (m s) = mkW (w_heap s) (q :: w_safe s) (w_x s)) ->
    wout Q (List.length (w_heap s)) (wbind m (fun _ => Walk fuel nested vT vR vC q) s1)) as K.
  { intros m Hm. unfold wbind.
    assert (HS : w_heap (fst (m s1)) = w_heap s1 /\ w_x (fst (m s1)) = w_x s1) by (destruct (Hm s1) as [-> | ->]; auto).
    destruct (m s1) as [s2 [x| |]]; simpl in HS; destruct HS as [H1 H2].
    - destruct (IH q s2) as (B1 & B2 & B3); rewrite ?H1, ?H2; auto. rewrite H1 in B2. split; [auto|split; [lia|auto]].
    - unfold wout. simpl. rewrite H1, H2. auto.
    - unfold wout. simpl. rewrite H1, H2. auto. }
  unfold wbind at 1. unfold wtab at 1. apply K. intros s2. destruct (is_nil _); simpl; auto. destruct (in_set q (w_safe s2)); auto.
Qed.

Lemma wgood_wheap {X A} b (Q : X -> nat -> Prop) (f : heap -> heap * res A) :
  (forall h, b <= List.length h -> wf_heap h -> wf_step f h) -> (forall x n m, n <= m -> Q x n -> Q x m) ->
  wgood b Q (@wheap X A f).
Proof.
  intros H MQ s Hs WH HQ. unfold wheap. destruct (H _ Hs WH) as [A1 A2].
  destruct (f (w_heap s)) as [h r]. simpl in *. split; [auto|split; [auto|]]. eapply MQ; eauto.
Qed.

Lemma copydeep_visit_good info : wgood (S (ci_tab info)) (fun x n => x < n) (copydeep_visit info).
Proof.
  unfold copydeep_visit. apply wgood_bind.
  2:{ intros _ s Hs WH _. simpl. split; [auto|split; [auto|]]. exact Hs. }
  destruct (ci_type info =? "*Table"); [|apply wgood_id; auto].
  apply wgood_bind; [apply wgood_wtab|intros t]. apply wgood_bind; [apply wgood_wlift|intros [q|]]; [|apply wgood_wlift].
  apply wgood_bind; [apply wgood_wtab|intros tq].
  intros s Hs WH HQ. unfold wbind.
  assert (K : forall f : heap -> heap * res ptr, wf_step f (w_heap s) ->
     (forall h' q, f (w_heap s) = (h', Ok q) -> q < List.length h') ->
     let r := (match wheap f s with
            | (s', Ok a) => wheap (SetTableByColIndex (ci_tab info) (ci_col info) (ci_row info) (Some a)) s'
            | (s', Err) => (s', Err)
            | (s', Panic) => (s', Panic)
            end) in
     wf_heap (w_heap (fst r)) /\ List.length (w_heap s) <= List.length (w_heap (fst r)) /\ w_x (fst r) < List.length (w_heap (fst r))).
  { intros f [F1 F2] FQ. unfold wheap at 1. destruct (f (w_heap s)) as [h' [q'| |]]; simpl in *; try (split; [auto|split; lia]).
    specialize (FQ h' q' eq_refl). unfold wheap. cbn [w_heap w_x w_safe].
    destruct (SetTableByColIndex_wf (ci_tab info) (ci_col info) (ci_row info) q' h' F1) as [B1 B2]; [lia|auto|].
    destruct (SetTableByColIndex _ _ _ _ _) as [h'' r]. simpl in *. split; [auto|split; lia]. }
  destruct (is_nil tq); apply K.
  - apply new_tab_wf; auto. apply pres_ret.
  - intros h' q' E. now apply new_tab_ok in E.
  - now apply Copy_wf.
  - intros h' q' E. now apply Copy_ok in E.
Qed.

Lemma CopyDeep_wf fuel p h : wf_heap h -> p < List.length h -> wf_step (CopyDeep fuel p) h.
Proof.
  intros WH Hp. unfold wf_step, CopyDeep.
  destruct (Walk_good (fun x n => x < n) true (fun _ => wret tt) (fun _ _ => wret tt) copydeep_visit fuel) with (p := p) (s := mkW h [] p)
    as (A1 & A2 & A3); auto.
  - intros. apply wgood_id; auto.
  - intros. apply wgood_id; auto.
  - apply copydeep_visit_good.
  - destruct (Walk _ _ _ _ _ _ _) as [s [u| |]]; simpl in *; auto.
Qed.

Lemma setSortKeysBetween_wf p1 p2 h : wf_heap h -> wf_step (setSortKeysBetweenTables p1 p2) h.
Proof.
  intros WH. unfold wf_step, setSortKeysBetweenTables.
  destruct (_ >? 0)%Z; [apply on_heap_wf; auto; apply pres_SetSortKeysFromTable|].
  destruct (_ >? 0)%Z; [apply on_heap_wf; auto; apply pres_SetSortKeysFromTable|]. simpl. auto.
Qed.
Lemma sortMerged_wf E p1 p2 p h : env_ok E -> wf_heap h -> wf_step (sortMerged E p1 p2 p) h.
Proof.
  intros EO WH. unfold wf_step, sortMerged.
  assert (K : forall x : heap * res unit, wf_heap (fst x) -> List.length h <= List.length (fst x) ->
    let y := (let '(h1, r) := x in match r with Ok _ => on_heap p (Sort E []) h1 | _ => (h1, r) end) in
    wf_heap (fst y) /\ List.length h <= List.length (fst y)).
  { intros [h1 r] H1 H2. simpl in *. destruct r; simpl; auto.
    destruct (on_heap_wf p (Sort E []) h1 H1) as [A B]; [now apply pres_Sort|]. split; auto. lia. }
  destruct (_ =? 0)%Z.
  - apply (K (setSortKeysBetweenTables p1 p2 h)); apply setSortKeysBetween_wf; auto.
  - apply (K (h, Ok tt)); simpl; auto.
Qed.

Lemma Merge_wf E p1 p2 h : env_ok E -> wf_heap h -> wf_step (Merge E p1 p2) h.
Proof.
  intros EO WH. unfold wf_step, Merge.
  destruct (_ =? 0)%Z.
  { pose proof (sortMerged_wf E p1 p2 p2 h EO WH) as K. unfold wf_step in K.
    destruct (sortMerged E p1 p2 p2 h) as [h1 r]. auto. }
  destruct (_ =? 0)%Z.
  { pose proof (sortMerged_wf E p1 p2 p1 h EO WH) as K. unfold wf_step in K.
    destruct (sortMerged E p1 p2 p1 h) as [h1 r]. auto. }
  pose proof (setSortKeysBetween_wf p1 p2 h WH) as K. unfold wf_step in K.
  destruct (setSortKeysBetweenTables p1 p2 h) as [h1 r]. simpl in K. destruct K as [W1 L1].
  destruct r; simpl; auto.
  destruct (tab_wf h1 p1 W1), (tab_wf h1 p2 W1).
  destruct (new_tab_wf (merge_body E (tab h1 p1) (tab h1 p2)) h1 W1) as [A B].
  - apply pres_merge_body; auto; now apply ptrs_S.
  - split; auto. lia.
Qed.

Lemma SortUnique_wf E p cols h : env_ok E -> wf_heap h -> wf_step (SortUnique E p cols) h.
Proof.
  intros EO WH. unfold wf_step, SortUnique.
  assert (K : forall x : heap * res unit, wf_heap (fst x) -> List.length h <= List.length (fst x) ->
    let y := (let '(h1, r) := x in match r with
  | Ok _ =>
      if Nat.eqb (List.length (skeys (tab h1 p))) 0 then (h1, Err)
      else
        let '(h2, r2) := Merge E p p h1 in
        match r2 with
        | Ok q => let '(h3, r3) := on_heap q (SetName (tname (tab h2 p))) h2 in (h3, let! _ := r3 in Ok q)
        | _ => (h2, r2)
        end
  | Err => (h1, Err)
  | Panic => (h1, Panic) end) in
    wf_heap (fst y) /\ List.length h <= List.length (fst y)).
  { intros [h1 r] H1 H2. simpl in *. destruct r; simpl; auto.
    destruct (Nat.eqb _ _); simpl; auto.
    destruct (Merge_wf E p p h1 EO H1) as [M1 M2].
    destruct (Merge E p p h1) as [h2 [q| |]]; simpl in *; try (split; [auto|lia]).
    destruct (on_heap_wf q (SetName (tname (tab h2 p))) h2 M1) as [A B]; [apply pres_SetName|].
    destruct (on_heap q _ h2) as [h3 r3]. simpl in *. split; [auto|lia]. }
  destruct (Nat.ltb _ _).
  - apply (K (on_heap p (SetSortKeys cols) h)); apply on_heap_wf; auto; apply pres_SetSortKeys.
  - apply (K (h, Ok tt)); simpl; auto.
Qed.

(** ---------- every call ---------- *)

Lemma in_range_int z : (0 <= z < 2 ^ 63)%Z -> in_range KInt z = true.
Proof. intros H. apply andb_true_iff. unfold imin, imax. simpl isigned. cbn iota. simpl ibits. split; apply Z.leb_le; lia. Qed.
Lemma colinfo_hdr_wf : wf_table colinfo_hdr.
Proof.
  change colinfo_hdr with (fst (run (SetName "ColInfo" ;;; AppendCol "index" "int" ;;; AppendCol "colName" "string" ;;;
     AppendCol "colType" "string") 0 NewNilTable)).
  apply run_pres; [pr|apply wf_NewNilTable|constructor].
Qed.
Lemma keytab_hdr_wf : wf_table keytab_hdr.
Proof.
  change keytab_hdr with (fst (run (SetName "SortKeys" ;;; AppendCol "index" "int" ;;; AppendCol "colName" "string" ;;;
     AppendCol "colType" "string" ;;; AppendCol "reverse" "bool") 0 NewNilTable)).
  apply run_pres; [pr|apply wf_NewNilTable|constructor].
Qed.
Lemma colinfo_wf t t' : wf_table t -> int_len (cnames t) = true -> GetColInfoAsTable t = Ok t' ->
  wf_table t' /\ ptrs_lt 0 t' /\ parent t' = None.
Proof.
  intros W L E. rewrite GetColInfoAsTable_eq in E by auto. destruct (is_nil t); [discriminate|]. injection E as <-.
  apply Z.ltb_lt in L. split; [|split; [|reflexivity]].
  - apply wf_with_rows; [apply colinfo_hdr_wf| |discriminate].
    apply Forall_forall. intros r R. apply in_map_iff in R as (k & <- & K). apply in_seq in K.
    unfold colinfo_row. simpl. repeat constructor. apply in_range_int. lia.
  - apply Forall_forall. intros r R. apply in_map_iff in R as (k & <- & K). repeat constructor.
Qed.
Lemma keytab_wf t t' : int_len (skeys t) = true -> GetSortKeysAsTable t = Ok t' -> wf_table t' /\ ptrs_lt 0 t' /\ parent t' = None.
Proof.
  intros L E. rewrite GetSortKeysAsTable_eq in E. injection E as <-.
  apply Z.ltb_lt in L. split; [|split; [|reflexivity]].
  - apply wf_with_rows; [apply keytab_hdr_wf| |discriminate].
    apply Forall_forall. intros r R. apply in_map_iff in R as (k & <- & K). apply in_seq in K.
    unfold key_row. simpl. repeat constructor. apply in_range_int. lia.
  - apply Forall_forall. intros r R. apply in_map_iff in R as (k & <- & K). repeat constructor.
Qed.

Lemma new_val_wf r h : wf_heap h -> (forall t, r = Ok t -> wf_table t /\ ptrs_lt 0 t /\ parent t = None) -> wf_step (new_val r) h.
Proof.
  intros WH H. unfold wf_step, new_val. destruct r as [t| |]; simpl; auto.
  destruct (H t eq_refl) as (W & P & PA). rewrite app_length. simpl. split; [|lia].
  rewrite <- wfh_heap in *. rewrite app_length. simpl. apply wfh_app; [eapply wfh_le; [|exact WH]; lia|].
  apply wfh_cons; auto.
  - eapply ptrs_lt_le; [|exact P]. lia.
  - rewrite PA. discriminate.
  - repeat split; constructor.
Qed.

Lemma wf_step_newly f h : wf_step f h -> wf_step (fun h => newly (f h)) h.
Proof. auto. Qed.
Lemma wf_step_nothing f h : wf_step f h -> wf_step (fun h => nothing (f h)) h.
Proof. auto. Qed.

Lemma ref_lt h p : ref_in h (Some p) = true -> p < List.length h.
Proof. apply Nat.ltb_lt. Qed.

Lemma set_on_heap_wf p q m h : wf_heap h -> p < List.length h -> pres (List.length h) m ->
  wf_step (fun h => nothing (on_heap p m (set_parent q p h))) h.
Proof.
  intros WH Hp PM. unfold wf_step, nothing. simpl.
  destruct (set_parent_wf q p h WH Hp) as [W L].
  destruct (on_heap_wf p m (set_parent q p h) W) as [A B]; [rewrite L; auto|]. split; auto. etransitivity; [|exact B]. now rewrite L.
Qed.

Lemma seen_ok h p q : wf_heap h -> src_ok (List.length h) (seen_from h p q).
Proof.
  intros WH. unfold seen_from. destruct (Nat.eqb p q); [apply src_id|].
  destruct (tab_wf h q WH). now apply src_const.
Qed.

Lemma hexec_keys E q h : hexec E (HGetSortKeysAsTable (Some q)) h = new_val (GetSortKeysAsTable (tab h q)) h.
Proof. reflexivity. Qed.
Lemma hexec_appcols E p q h :
  hexec E (HAppendColsFromTable (Some p) (Some q)) h = nothing (on_heap p (AppendColsFromTable (seen_from h p q)) h).
Proof. reflexivity. Qed.
Lemma hexec_wf E c h : env_ok E -> wf_heap h -> hop_typed h c = true -> wf_step (hexec E c) h.
Proof.
  intros EO WH HT.
  assert (SAME : wf_step (fun h => (h, @Err ref)) h) by (split; simpl; auto).
  destruct c as [[p|] o|n| |n cns cts|[p|] [q|] f l|[p|] [q|]|[p|] [q|]|[q|] n f l|[q|] n vs|[q|] ns|[q|] od|[q|]|[q|]|[q|]|[q|]|[p|] [q|]|[p|] cols|fuel [p|]];
    cbn [hop_typed] in HT;
    repeat match goal with
    | H : _ && _ = true |- _ => apply andb_true_iff in H; destruct H
    | H : ref_in _ _ = true |- _ => apply ref_lt in H
    end; try exact SAME;
    try (destruct (tab_wf h q WH)).
  - pose proof (exec_pres (List.length h) E o EO ltac:(assumption)) as PE.
    assert (D : wf_step (fun h => nothing (on_heap p (exec E o) h)) h) by (apply wf_step_nothing; now apply on_heap_wf).
    destruct o; try exact D.
    + destruct v as [| | | | | | |[q|]| |]; try exact D. apply set_on_heap_wf; auto.
    + destruct v as [| | | | | | |[q|]| |]; try exact D. apply set_on_heap_wf; auto.
  - apply wf_step_newly, new_tab_wf; auto. apply pres_SetName.
  - apply wf_step_newly, new_tab_wf; auto. apply pres_ret.
  - apply wf_step_newly, new_tab_wf; auto. pr.
  - apply wf_step_nothing. apply (on_heap_wf p _ h); auto. apply pres_AppendRowsFromTable. now apply seen_ok.
  - unfold wf_step. rewrite hexec_appcols.
    pose proof (pres_AppendColsFromTable (List.length h) (seen_from h p q)) as PA. revert PA.
    generalize (AppendColsFromTable (seen_from h p q)). intros m PA. unfold nothing. cbn [fst]. now apply on_heap_wf.
  - apply wf_step_nothing. apply (on_heap_wf p _ h); auto. apply pres_SetSortKeysFromTable.
  - apply wf_step_newly, new_tab_wf; auto. apply pres_NewTableFromRows; auto. now apply ptrs_S.
  - apply wf_step_newly, new_tab_wf; auto. apply pres_NewTableFromRowsBySearchRange; auto. now apply ptrs_S.
  - apply wf_step_newly, reorder_names_wf; auto.
  - apply wf_step_newly, reorder_wf; auto.
  - apply (new_val_wf (GetColInfoAsTable (tab h q)) h WH). intros t. now apply colinfo_wf.
  - unfold wf_step. rewrite hexec_keys.
    pose proof (keytab_wf (tab h q)) as KW. revert KW. generalize (GetSortKeysAsTable (tab h q)). intros r KW.
    apply (new_val_wf r h WH). intros t HK. now apply KW.

  - apply wf_step_newly. now apply Copy_wf.
  - apply wf_step_newly. now apply CopyCols_wf.
  - apply wf_step_newly. now apply Merge_wf.
  - apply wf_step_newly. now apply SortUnique_wf.
  - apply wf_step_newly. now apply CopyDeep_wf.
Qed.

Lemma wf_heap_nil : wf_heap [].
Proof. constructor; [constructor|..]; intros p t q H; destruct p; discriminate. Qed.

Theorem reachable_wf E h : env_ok E -> reachable E h -> wf_heap h.
Proof. intros EO R. induction R; [apply wf_heap_nil|]. now apply hexec_wf. Qed.
