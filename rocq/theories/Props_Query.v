(** Props_Query.v -- C51: questions about cells and columns agree with the accessors, and the
    variants of the accessors agree with each other. *)
From Coq Require Import ZArith NArith List String Ascii Bool SpecFloat Lia.
From Verif Require Import Base Model_Names Model_Table Model_Sort Model_Copy Model_Heap Model_Lex Model_Print Model_Query Spec Spec_Sort Spec_Copy Spec_Heap.
From Verif Require Import Proofs_Lib Proofs_Table Proofs_Cells Proofs_Struct Proofs_Api Proofs_Api2 Proofs_Pres Samples Proofs_Heap Proofs_Frame
  Props_Cells Props_Struct Props_Copy Props_Sort Props_Csv Props_Walk.
Import ListNotations.
Local Open Scope string_scope.
Local Open Scope list_scope.

Lemma GetVal_ok_iff t c r : wf_table t ->
  ((0 <= c < ColCount t)%Z /\ (0 <= r < RowCount t)%Z <-> exists v, GetValByColIndex t c r = Ok v).
Proof.
  intros W. split.
  - intros [C R]. unfold GetValByColIndex. rewrite (wf_col_not_nil t c W C).
    rewrite (proj2 (HasRow_iff t r) R), (proj2 (HasCol_iff t c) C). cbn [negb].
    destruct (wf_cell t W c r C R) as (ct & v & _ & _ & E & _). eauto.
  - intros [v E]. unfold GetValByColIndex in E. destruct (is_nil t); [discriminate|].
    destruct (HasRow t r) eqn:R; [|discriminate]. destruct (HasColByColIndex t c) eqn:C; [|discriminate].
    split; [now apply HasCol_iff|now apply HasRow_iff].
Qed.

Lemma GetVal_iff' t cn r : wf_table t ->
  (In cn (cnames t) /\ (0 <= r < RowCount t)%Z <-> exists v, GetVal t cn r = Ok v).
Proof.
  intros W. split.
  - intros [I R]. apply col_at_In in I as [c C]. rewrite (GetVal_col_at t c cn r W C). apply GetVal_ok_iff; auto.
    split; auto. now apply (col_at_range t c cn).
  - intros [v E]. destruct (in_dec string_dec cn (cnames t)) as [I|NI]; [|rewrite GetVal_no_col in E; auto; discriminate].
    split; auto. apply col_at_In in I as [c C]. rewrite (GetVal_col_at t c cn r W C) in E.
    apply (GetVal_ok_iff t c r W). eauto.
Qed.

(** ---------- is there a cell? ---------- *)

(** HasCell answers true exactly when the cell can be read; otherwise it returns an error. *)
Theorem C51_HasCell : forall t cn r, wf_table t ->
  ((exists v, GetVal t cn r = Ok v) -> HasCell t cn r = Ok true)
  /\ (~ (exists v, GetVal t cn r = Ok v) -> HasCell t cn r = Err).
Proof.
  intros t cn r W. unfold HasCell. rewrite (wf_HasCol t W). cbn [rbind]. split; intros H.
  - apply GetVal_iff' in H as [I R]; auto. destruct (in_dec _ _ _); [|contradiction].
    now rewrite (proj2 (HasRow_iff t r) R).
  - destruct (in_dec _ _ _) as [I|]; [cbn [negb]|reflexivity]. destruct (HasRow t r) eqn:R; [|reflexivity].
    destruct H. apply GetVal_iff'; auto. split; auto. now apply HasRow_iff.
Qed.
Theorem C51_HasCellByColIndex : forall t c r, wf_table t ->
  ((exists v, GetValByColIndex t c r = Ok v) -> HasCellByColIndex t c r = Ok true)
  /\ (~ (exists v, GetValByColIndex t c r = Ok v) -> HasCellByColIndex t c r = Err).
Proof.
  intros t c r W. unfold HasCellByColIndex. split; intros H.
  - apply GetVal_ok_iff in H as [C R]; auto.
    rewrite (proj2 (HasRow_iff t r) R), (proj2 (HasCol_iff t c) C). cbn [negb].
    destruct (RowCount t >=? r + 1)%Z eqn:G; [cbn [negb]|lia].
    destruct (wf_row_at t r (proj2 (HasRow_iff t r) R)) as [row N].
    assert (Z : znth (rows t) r = Some row) by (apply znth_some; split; [lia|exact N]). rewrite Z.
    assert (L : List.length row = List.length (cnames t)).
    { rewrite <- (wf_types_len t W). symmetry. eapply Forall2_len. exact (Forall_nth_error _ _ _ _ (wf_cells t W) N). }
    rewrite L. fold (ColCount t). rewrite Z.eqb_refl. cbn [negb].
    destruct (ColCount t >=? c + 1)%Z eqn:G2; [reflexivity|lia].
  - destruct (HasColByColIndex t c) eqn:C; [|reflexivity]. destruct (HasRow t r) eqn:R; [|reflexivity].
    destruct H. apply GetVal_ok_iff; auto. split; [now apply HasCol_iff|now apply HasRow_iff].
Qed.

(** ---------- the type of a column ---------- *)

Theorem C51_IsColType : forall t cn typ, wf_table t ->
  (forall c ct, col_at t c cn -> nth_error (ctypes t) (Z.to_nat c) = Some ct ->
     (ct = typ -> IsColType t cn typ = Ok true) /\ (ct <> typ -> IsColType t cn typ = Ok false)
     /\ IsColTypeByColIndex t c typ = IsColType t cn typ)
  /\ (~ In cn (cnames t) -> IsColType t cn typ = Err)
  /\ (forall c, ~ (0 <= c < ColCount t)%Z -> IsColTypeByColIndex t c typ = Err).
Proof.
  intros t cn typ W. split; [|split].
  - intros c ct C T. assert (E : ColType t cn = Ok ct).
    { apply wf_ColType_iff; auto. exists (Z.to_nat c). split; auto. apply C. }
    split; [intros <-; unfold IsColType; rewrite E; cbn; now rewrite String.eqb_refl|].
    split; [intros NE; unfold IsColType; rewrite E; cbn; now rewrite (proj2 (String.eqb_neq _ _) NE)|].
    unfold IsColTypeByColIndex. rewrite (proj2 (HasCol_iff t c) (col_at_range _ _ _ C)). cbn [negb].
    assert (Z : znth (cnames t) c = Some cn) by (apply znth_some; exact C). now rewrite Z.
  - intros NI. unfold IsColType. now rewrite (proj2 (wf_ColType_err t W cn) NI).
  - intros c NC. unfold IsColTypeByColIndex. destruct (HasColByColIndex t c) eqn:C; [|reflexivity].
    apply HasCol_iff in C. contradiction.
Qed.

Theorem C51_IsTableCol : forall t cn, wf_table t ->
  (forall c ct, col_at t c cn -> nth_error (ctypes t) (Z.to_nat c) = Some ct ->
     (ct = "*Table" -> IsTableCol t cn = Ok true) /\ (ct <> "*Table" -> IsTableCol t cn = Ok false)
     /\ IsTableColByColIndex t c = IsTableCol t cn)
  /\ (~ In cn (cnames t) -> IsTableCol t cn = Err)
  /\ (forall c, ~ (0 <= c < ColCount t)%Z -> IsTableColByColIndex t c = Err).
Proof.
  intros t cn W. split; [|split].
  - intros c ct C T. assert (E : IsTableColByColIndex t c = Ok (ct =? "*Table")).
    { unfold IsTableColByColIndex. rewrite ColTypeByColIndex_eq by auto.
      rewrite (proj2 (HasCol_iff t c) (col_at_range _ _ _ C)), T. reflexivity. }
    assert (E' : IsTableCol t cn = Ok (ct =? "*Table")).
    { unfold IsTableCol. rewrite (proj1 (ColIndex_col_at t c cn W) C). exact E. }
    rewrite E, E'. split; [intros ->; now rewrite String.eqb_refl|]. split; [|reflexivity].
    intros NE. now rewrite (proj2 (String.eqb_neq _ _) NE).
  - intros NI. unfold IsTableCol. destruct (ColIndex_cases t cn W) as [(i & N & _)|[_ E]]; [|now rewrite E].
    destruct NI. eapply nth_error_In; eauto.
  - intros c NC. unfold IsTableColByColIndex. rewrite ColTypeByColIndex_eq by auto.
    destruct (HasColByColIndex t c) eqn:C; [|reflexivity]. apply HasCol_iff in C. contradiction.
Qed.

(** ---------- accessors that panic instead of returning an error ---------- *)

(** The MustGet accessors return what the plain accessors return, and panic exactly when those
    return an error. *)
Theorem C51_MustGet : forall vt t cn c r, wf_table t -> In vt all_types ->
  (forall v, GetTMustGet vt t cn r = Ok v <-> GetT vt t cn r = Ok v)
  /\ (GetTMustGet vt t cn r = Panic <-> GetT vt t cn r = Err)
  /\ (forall v, GetTByColIndexMustGet vt t c r = Ok v <-> GetTByColIndex vt t c r = Ok v)
  /\ (GetTByColIndexMustGet vt t c r = Panic <-> GetTByColIndex vt t c r = Err)
  /\ (forall v, GetValMustGet t cn r = Ok v <-> GetVal t cn r = Ok v)
  /\ (GetValMustGet t cn r = Panic <-> GetVal t cn r = Err)
  /\ (forall v, GetValByColIndexMustGet t c r = Ok v <-> GetValByColIndex t c r = Ok v)
  /\ (GetValByColIndexMustGet t c r = Panic <-> GetValByColIndex t c r = Err).
Proof.
  intros vt t cn c r W Hvt.
  assert (A : forall (x : res value), x <> Panic -> (forall v, must x = Ok v <-> x = Ok v) /\ (must x = Panic <-> x = Err)).
  { intros [v| |] N; [|clear N|contradiction]; cbn; (split; [intros v'|]); split; intros; congruence. }
  assert (N1 : GetT vt t cn r <> Panic).
  { destruct (GetT_eq vt t cn r W Hvt) as [(c' & ct & _ & _ & _ & _ & -> & v & -> & _)|[_ ->]]; discriminate. }
  assert (N2 : GetTByColIndex vt t c r <> Panic).
  { destruct (GetTByColIndex_eq vt t c r W Hvt) as [(ct & _ & _ & _ & _ & -> & v & -> & _)|[_ ->]]; discriminate. }
  assert (N4 : forall c r, GetValByColIndex t c r <> Panic).
  { intros c0 r0. rewrite get_at by auto. destruct (_ && _)%bool; [|discriminate]. destruct (at_cell _ _ _); discriminate. }
  assert (N3 : GetVal t cn r <> Panic).
  { destruct (in_dec string_dec cn (cnames t)) as [I|NI]; [|rewrite GetVal_no_col; auto; discriminate].
    apply col_at_In in I as [c0 C]. rewrite (GetVal_col_at t c0 cn r W C). apply N4. }
  destruct (A _ N1) as [A1 A2]. destruct (A _ N2) as [A3 A4]. destruct (A _ N3) as [A5 A6]. destruct (A _ (N4 c r)) as [A7 A8].
  split; [exact A1|]. split; [exact A2|]. split; [exact A3|]. split; [exact A4|].
  unfold GetValMustGet, GetValByColIndexMustGet. destruct (is_nil t) eqn:NT.
  - assert (E1 : GetVal t cn r = Err) by (unfold GetVal; now rewrite NT).
    assert (E2 : GetValByColIndex t c r = Err) by (unfold GetValByColIndex; now rewrite NT).
    rewrite E1, E2. repeat split; intros; congruence.
  - split; [exact A5|]. split; [exact A6|]. split; [exact A7|exact A8].
Qed.

(** The MustSet accessors write what the plain accessors write; where those return an error, or
    panic because of a column index out of range, they panic and leave the table alone. *)
Theorem C51_MustSet : forall vt t b cn c r v, wf_table t -> In vt all_types -> arg_of_type vt v = true ->
  (forall t', run (SetTMustSet vt cn r v) b t = (t', Ok tt) <-> run (SetT vt cn r v) b t = (t', Ok tt))
  /\ (~ (exists t', run (SetT vt cn r v) b t = (t', Ok tt)) -> run (SetTMustSet vt cn r v) b t = (t, Panic))
  /\ (forall t', run (SetTByColIndexMustSet vt c r v) b t = (t', Ok tt) <-> run (SetTByColIndex vt c r v) b t = (t', Ok tt))
  /\ (~ (exists t', run (SetTByColIndex vt c r v) b t = (t', Ok tt)) -> run (SetTByColIndexMustSet vt c r v) b t = (t, Panic)).
Proof.
  intros vt t b cn c r v W Hvt Ha.
  assert (A : forall m : M unit, (exists s', m (mkS t b []) = (s', Ok tt)) \/ m (mkS t b []) = (mkS t b [], Err) \/ m (mkS t b []) = (mkS t b [], Panic) ->
     (forall t', run (must_do m) b t = (t', Ok tt) <-> run m b t = (t', Ok tt))
     /\ (~ (exists t', run m b t = (t', Ok tt)) -> run (must_do m) b t = (t, Panic))).
  { intros m H. unfold run, must_do. destruct H as [[s' ->]|[-> | ->]].
    - split; [intros; reflexivity|]. intros N. destruct N. eauto.
    - split; [intros; split; discriminate|]. reflexivity.
    - split; [intros; reflexivity|]. reflexivity. }
  destruct (A (SetT vt cn r v)) as [A1 A2].
  { destruct (SetT_eq vt cn r v (mkS t b []) W Hvt Ha) as [(i & ct & NN & Hr & C & T & HT & E)|[_ E]]; [left; eauto|right; left; exact E]. }
  destruct (A (SetTByColIndex vt c r v)) as [A3 A4]; [|tauto].
  destruct (HasColByColIndex t c) eqn:HC.
  - apply HasCol_iff in HC.
    destruct (SetTByColIndex_eq vt c r v (mkS t b []) W Hvt Ha HC) as [(ct & NN & Hr & T & HT & E)|[_ E]]; [left; eauto|right; left; exact E].
  - destruct (not_nil_arg v) eqn:NN.
    + right; right. apply SetTByColIndex_panic; auto. simpl. intros H. apply HasCol_iff in H. congruence.
    + right; left. unfold SetTByColIndex. rewrite bind_check, NN. reflexivity.
Qed.

(** ---------- values as strings ---------- *)

Lemma rmap_all {A B} (f : A -> res B) (l : list A) :
  (forall x, In x l -> exists y, f x = Ok y) -> exists ys, rmap f l = Ok ys /\ Forall2 (fun x y => f x = Ok y) l ys.
Proof.
  induction l as [|x l IH]; intros H; [exists []; split; [reflexivity|constructor]|].
  destruct (H x (or_introl eq_refl)) as [y Y]. destruct IH as (ys & E & F); [intros; apply H; now right|].
  exists (y :: ys). cbn [rmap]. rewrite Y, E. split; [reflexivity|constructor; auto].
Qed.

(** The strings of a column are the strings of its cells, row by row, and JoinColVals is these
    strings with the separator between them. *)
Theorem C51_column_strings : forall h t c cn sep, wf_table t -> col_at t c cn ->
  (forall r, GetValAsString h t cn r = GetValAsStringByColIndex h t c r)
  /\ (forall r, GetValAsStringByColIndex h t c r = Err <-> ~ (0 <= r < RowCount t)%Z)
  /\ exists ss, GetColValsAsStrings h t cn = Ok ss /\ Z.of_nat (List.length ss) = RowCount t
      /\ (forall r, (0 <= r < RowCount t)%Z -> exists s, nth_error ss (Z.to_nat r) = Some s /\ GetValAsStringByColIndex h t c r = Ok s)
      /\ JoinColVals h t cn sep = Ok (String.concat sep ss) /\ JoinColValsByColIndex h t c sep = Ok (String.concat sep ss).
Proof.
  intros h t c cn sep W C. pose proof (col_at_range _ _ _ C) as RC. pose proof (wf_col_not_nil t c W RC) as NN.
  assert (A : forall r, GetValAsString h t cn r = GetValAsStringByColIndex h t c r).
  { intros r. unfold GetValAsString. rewrite NN, (proj1 (ColIndex_col_at t c cn W) C). reflexivity. }
  assert (B : forall r, (0 <= r < RowCount t)%Z -> exists s, GetValAsStringByColIndex h t c r = Ok s).
  { intros r R. destruct (wf_cell t W c r RC R) as (ct & v & T & I & E & K). unfold GetValAsStringByColIndex, GetValByColIndex.
    rewrite NN, (proj2 (HasRow_iff t r) R), (proj2 (HasCol_iff t c) RC). cbn [negb]. rewrite E. cbn [rbind].
    assert (Z : znth (ctypes t) c = Some ct) by (apply znth_some; split; [lia|exact T]). rewrite Z.
    destruct (cell_text_ok h ct v I K) as [s ->]. eauto. }
  split; [exact A|]. split.
  - intros r. split; [intros E R; destruct (B r R) as [s S]; congruence|]. intros NR.
    unfold GetValAsStringByColIndex. rewrite NN. unfold GetValByColIndex. rewrite NN.
    destruct (HasRow t r) eqn:R; [apply HasRow_iff in R; contradiction|reflexivity].
  - destruct (rmap_all (GetValAsString h t cn) (zseq (List.length (rows t)))) as (ss & E & F).
    { intros r I. rewrite A. apply B. apply Proofs_Lib.In_zseq in I. exact I. }
    assert (G : GetColValsAsStrings h t cn = Ok ss) by (unfold GetColValsAsStrings; rewrite NN; exact E).
    exists ss. split; [exact G|]. split.
    { pose proof F as L. apply Forall2_len in L. rewrite Proofs_Lib.zseq_length in L. unfold RowCount. now rewrite L. }
    split.
    { intros r R. assert (N : nth_error (zseq (List.length (rows t))) (Z.to_nat r) = Some r).
      { rewrite Proofs_Lib.nth_error_zseq. unfold RowCount in R. destruct (Nat.ltb_spec (Z.to_nat r) (List.length (rows t))); [f_equal|]; lia. }
      destruct (Forall2_nth _ _ _ _ _ F N) as (s & S & X). exists s. rewrite <- A. auto. }
    split; [unfold JoinColVals; now rewrite G|].
    unfold JoinColValsByColIndex, ColName.
    assert (Z : znth (cnames t) c = Some cn) by (apply znth_some; exact C). rewrite Z.
    replace ((c <? 0) || (c >? ColCount t - 1))%Z with false by lia. cbn [rbind]. unfold JoinColVals. now rewrite G.
Qed.

(** A column that does not exist is an error, unless the table has no rows: then the list of its
    values is the empty list, and the joined values are the empty string. *)
Theorem C51_unknown_column_refuted : forall h t cn sep, wf_table t -> is_nil t = false -> ~ In cn (cnames t) ->
  (rows t <> [] -> GetColValsAsStrings h t cn = Err /\ JoinColVals h t cn sep = Err)
  /\ (rows t = [] -> GetColValsAsStrings h t cn = Ok [] /\ JoinColVals h t cn sep = Ok "").
Proof.
  intros h t cn sep W NN NI. unfold JoinColVals, GetColValsAsStrings. rewrite NN. split.
  - intros NE. destruct (rows t) as [|r0 rs]; [congruence|]. cbn [List.length zseq seq map rmap].
    unfold GetValAsString at 1 3. rewrite NN.
    destruct (ColIndex_cases t cn W) as [(i & N & _)|[_ E]]; [|rewrite E; auto]. destruct NI. eapply nth_error_In; eauto.
  - intros ->. cbn. auto.
Qed.

(** ---------- the value test ---------- *)

(** IsValidCellValue and IsValidColValue accept a value exactly when its type has the very name
    of the column's type; SetVal accepts more. *)
Definition nameless_types : list string := ["byte"; "rune"; "[]byte"; "[]uint8"; "*Table"; "time.Time"].
Theorem C51_IsValidCellValue : forall t c cn ct v, wf_table t -> col_at t c cn ->
  nth_error (ctypes t) (Z.to_nat c) = Some ct -> (forall s, v <> VOther s) ->
  (IsValidColValue t cn v = Ok true <-> has_type ct v /\ ~ In ct nameless_types)
  /\ (IsValidColValue t cn v = Ok true \/ IsValidColValue t cn v = Err).
Proof.
  intros t c cn ct v W C T NO. assert (E : ColType t cn = Ok ct).
  { apply wf_ColType_iff; auto. exists (Z.to_nat c). split; auto. apply C. }
  assert (I : In ct all_types) by exact (Forall_nth_error _ _ _ _ (wf_types _ W) T).
  unfold IsValidColValue. rewrite E. cbn [rbind].
  clear -I NO. types I; destruct v as [|b|s|k z|f|f|o|o|tm|s]; try (now destruct (NO _ eq_refl)); try destruct k; try destruct o;
    cbn; (split; [|auto]); intuition (try discriminate; try congruence).
Qed.

(** A byte is a proper value of a "byte" column, and SetVal stores it, but IsValidCellValue
    rejects it; likewise for runes, slices, times and tables. *)
Theorem C51_IsValidCellValue_refuted : forall t b c cn ct v r, wf_table t -> col_at t c cn ->
  nth_error (ctypes t) (Z.to_nat c) = Some ct -> In ct nameless_types -> has_type ct v -> (0 <= r < RowCount t)%Z ->
  IsValidColValue t cn v = Err /\ exists t', run (SetVal cn r v) b t = (t', Ok tt).
Proof.
  intros t b c cn ct v r W C T I H R. split.
  - destruct (C51_IsValidCellValue t c cn ct v W C T) as [A [B|B]]; [intros s ->; exact H| |exact B].
    apply A in B as [_ B]. contradiction.
  - apply C03_SetVal; auto. exists c. split; auto. split; [apply C|]. split; auto. eauto.
Qed.

(** ---------- by index and by name ---------- *)

Theorem C51_by_name : forall t b c cn r new, wf_table t -> col_at t c cn ->
  run (RenameColByColIndex c new) b t = run (RenameCol cn new) b t
  /\ run (SetFloatCellToNaN cn r) b t = run (SetFloatCellToNaNByColIndex c r) b t
  /\ run (SetColFloatCellsToNaN cn) b t = run (SetColFloatCellsToNaNByColIndex c) b t
  /\ run (DeleteCol cn) b t = run (DeleteColByColIndex c) b t.
Proof.
  intros t b c cn r new W C. pose proof (proj1 (ColIndex_col_at t c cn W) C) as E.
  assert (N : ColName t c = Ok cn).
  { unfold ColName. assert (Z : znth (cnames t) c = Some cn) by (apply znth_some; exact C). rewrite Z.
    pose proof (col_at_range _ _ _ C). now replace ((c <? 0) || (c >? ColCount t - 1))%Z with false by lia. }
  split; [|split; [|split]]; unfold run, RenameColByColIndex, SetFloatCellToNaN, SetColFloatCellsToNaN, DeleteCol;
    rewrite bind_reads; cbn [s_tab]; first [rewrite N|rewrite E]; reflexivity.
Qed.
Theorem C51_no_such_column : forall t b cn c r new, wf_table t ->
  (~ In cn (cnames t) ->
     run (SetFloatCellToNaN cn r) b t = (t, Err) /\ run (SetColFloatCellsToNaN cn) b t = (t, Err) /\ run (DeleteCol cn) b t = (t, Err))
  /\ (~ (0 <= c < ColCount t)%Z -> run (RenameColByColIndex c new) b t = (t, Err)).
Proof.
  intros t b cn c r new W. split.
  - intros NI. destruct (ColIndex_cases t cn W) as [(i & N & _)|[_ E]]; [destruct NI; eapply nth_error_In; eauto|].
    unfold run, SetFloatCellToNaN, SetColFloatCellsToNaN, DeleteCol. rewrite !bind_reads; cbn [s_tab]; rewrite E. auto.
  - intros NC. unfold run, RenameColByColIndex. rewrite bind_reads. cbn [s_tab]. unfold ColName.
    now replace ((c <? 0) || (c >? ColCount t - 1))%Z with true by lia.
Qed.

(** The rows that match the search values, in a table of their own. *)
Theorem C51_NewTableFromRowsBySearchRange : forall E t vs name b, wf_table t -> keys_ok t -> no_nan_keys t -> skeys t <> [] ->
  search_values t vs -> sorted_table E t -> valid_name name ->
  (forall r, (0 <= r < RowCount t)%Z -> ~ row_matches t vs r) /\ snd (run (NewTableFromRowsBySearchRange E t name vs) b NewNilTable) = Err
  \/ exists first last t', run (NewTableFromRowsBySearchRange E t name vs) b NewNilTable = (t', Ok tt)
       /\ (forall r, (0 <= r < RowCount t)%Z -> (row_matches t vs r <-> (first <= r <= last)%Z))
       /\ fresh_table name t' /\ cnames t' = cnames t /\ ctypes t' = ctypes t /\ rows t' = row_range t first last.
Proof.
  intros E t vs name b W K NN NE S ST V. pose proof (C19_SearchRange E t vs W K NN NE S ST) as R.
  unfold run, NewTableFromRowsBySearchRange. unfold bind, lift.
  destruct (SearchRange E t vs) as [[f l]| |]; [|left; auto|destruct R].
  right. destruct R as (B & L & M). cbn [fst snd].
  destruct (C36_NewTableFromRows t name f l b W) as [A _].
  destruct A as (t' & A & F & C1 & C2 & C3); auto; [|lia|].
  - apply (wf_row_not_nil t f W). lia.
  - exists f, l, t'. unfold run in A. split; [exact A|]. auto.
Qed.

(** ---------- cell information ---------- *)

Theorem C51_GetCellInfo : forall t (p : ptr) c cn ct r, wf_table t -> col_at t c cn -> nth_error (ctypes t) (Z.to_nat c) = Some ct ->
  GetCellInfoByColIndex p t c r = Ok (mkCI p cn ct c r) /\ GetCellInfo p t cn r = Ok (mkCI p cn ct c r).
Proof.
  intros t p c cn ct r W C T. assert (E : GetCellInfoByColIndex p t c r = Ok (mkCI p cn ct c r)).
  { unfold GetCellInfoByColIndex. assert (Z : znth (ctypes t) c = Some ct) by (apply znth_some; split; [apply C|exact T]). rewrite Z.
    unfold ColName. assert (Z' : znth (cnames t) c = Some cn) by (apply znth_some; exact C). rewrite Z'.
    pose proof (col_at_range _ _ _ C). now replace ((c <? 0) || (c >? ColCount t - 1))%Z with false by lia. }
  split; [exact E|]. unfold GetCellInfo. rewrite (proj1 (ColIndex_col_at t c cn W) C). exact E.
Qed.
(** An unknown name is an error, but a column index out of range is a panic, and the row is not
    looked at: information about cells that do not exist is given freely. *)
Theorem C51_GetCellInfo_refuted : forall t (p : ptr), wf_table t ->
  (forall cn r, ~ In cn (cnames t) -> GetCellInfo p t cn r = Err)
  /\ (forall c r, ~ (0 <= c < ColCount t)%Z -> GetCellInfoByColIndex p t c r = Panic)
  /\ (forall c r, (0 <= c < ColCount t)%Z -> exists i, GetCellInfoByColIndex p t c r = Ok i).
Proof.
  intros t p W. split; [|split].
  - intros cn r NI. unfold GetCellInfo. destruct (ColIndex_cases t cn W) as [(i & N & _)|[_ E]]; [|now rewrite E].
    destruct NI. eapply nth_error_In; eauto.
  - intros c r NC. unfold GetCellInfoByColIndex. destruct (znth (ctypes t) c) as [ct|] eqn:Z; [|reflexivity].
    apply znth_some in Z as [Z0 Z]. apply nth_error_some_lt in Z. rewrite (wf_types_len t W) in Z. unfold ColCount in NC. lia.
  - intros c r RC. destruct (col_at_ex t c RC) as [cn C].
    assert (L : Z.to_nat c < List.length (ctypes t)) by (rewrite (wf_types_len t W); unfold ColCount in RC; lia).
    apply nth_error_lt in L as [ct T]. exists (mkCI p cn ct c r). now apply (C51_GetCellInfo t p c cn ct r).
Qed.

(** ---------- nested tables ---------- *)

Lemma nth_tab h (p : ptr) : p < List.length h -> nth_error h p = Some (tab h p).
Proof. intros L. unfold tab. now apply nth_error_nth'. Qed.
Lemma set_parent_tab h (q p x : ptr) : q < List.length h ->
  tab (set_parent q p h) x = if Nat.eqb x q then with_parent (Some p) (tab h q) else tab h x.
Proof.
  intros L. destruct (Nat.eqb_spec x q) as [->|NE].
  - unfold tab at 1, set_parent. apply nth_error_nth. now apply nth_error_upd_eq.
  - apply tab_eq. now apply set_parent_frame.
Qed.
Lemma wf_with_parent p t : wf_table t -> wf_table (with_parent p t).
Proof. intros [W1 W2 W3 W4 W5 W6 W7]. split; cbn; auto. Qed.

(** A nested table that was stored is read back, its parent is the table it was stored in,
    and nothing else changes. *)
Theorem C51_SetTable : forall h (p q : ptr) cn r h', wf_heap h -> p < List.length h -> q < List.length h ->
  SetTable p cn r (Some q) h = (h', Ok tt) ->
  GetT "*Table" (tab h' p) cn r = Ok (VTable (Some q))
  /\ (forall cn' r', (cn', r') <> (cn, r) -> GetVal (tab h' p) cn' r' = GetVal (tab h p) cn' r')
  /\ parent (tab h' q) = Some p
  /\ (q <> p -> tab h' q = with_parent (Some p) (tab h q) /\ parent (tab h' p) = parent (tab h p))
  /\ List.length h' = List.length h /\ forall x, x <> p -> x <> q -> nth_error h' x = nth_error h x.
Proof.
  intros h p q cn r h' W P Q E. unfold SetTable in E. set (h0 := set_parent q p h) in *.
  destruct (set_parent_wf q p h W P) as [W0 L0]. fold h0 in W0, L0.
  assert (P0 : p < List.length h0) by lia.
  pose proof (nth_tab h0 p P0) as NP. destruct (tab_wf h0 p W0) as [WT _].
  unfold on_heap in E. rewrite NP in E.
  destruct (SetT "*Table" cn r (VTable (Some q)) (mkS (tab h0 p) (List.length h0) [])) as [s x] eqn:S.
  assert (RUN : run (SetT "*Table" cn r (VTable (Some q))) (List.length h0) (tab h0 p) = (s_tab s, x)) by (unfold run; now rewrite S).
  destruct (SetT_eq "*Table" cn r (VTable (Some q)) (mkS (tab h0 p) (List.length h0) []) WT) as [(i & ct & _ & _ & _ & _ & _ & ES)|[_ ES]];
    [now repeat (first [left; reflexivity|right]) |reflexivity| |]; rewrite S in ES; injection ES as -> ->; [|discriminate].
  injection E as <-. cbn [s_tab written on_tab s_news new_nils map] in *. rewrite app_nil_r.
  assert (IT : In "*Table" all_types) by now repeat (first [left; reflexivity|right]).
  destruct (C02_typed_by_name "*Table" (tab h0 p) (List.length h0) cn r (VTable (Some q)) _ WT IT eq_refl eq_refl RUN) as (G & _ & G2 & SH & _).
  set (t' := with_rows _ _) in *.
  assert (TP : tab (upd h0 p t') p = t') by (unfold tab at 1; apply nth_error_nth; now apply nth_error_upd_eq).
  assert (TX : forall x, x <> p -> nth_error (upd h0 p t') x = nth_error h0 x) by (intros; apply nth_error_upd_ne; auto).
  rewrite TP. split; [exact G|].
  assert (GV : forall cn' r', GetVal (tab h0 p) cn' r' = GetVal (tab h p) cn' r').
  { intros. unfold h0. rewrite set_parent_tab by auto. destruct (Nat.eqb p q) eqn:PQ; [|reflexivity].
    apply Nat.eqb_eq in PQ. subst q. reflexivity. }
  split; [intros; rewrite <- GV; auto|].
  assert (PT : parent t' = parent (tab h0 p)) by reflexivity. clearbody t'.
  split; [|split; [|split]].
  - destruct (Nat.eq_dec q p) as [->|NE].
    + rewrite TP, PT. unfold h0. rewrite set_parent_tab, Nat.eqb_refl by auto. reflexivity.
    + rewrite (tab_eq h0) by auto. unfold h0. rewrite set_parent_tab, Nat.eqb_refl by auto. reflexivity.
  - intros NE. split; [rewrite (tab_eq h0) by auto; unfold h0; rewrite set_parent_tab, Nat.eqb_refl by auto; reflexivity|].
    rewrite PT. unfold h0. rewrite set_parent_tab by auto. rewrite (proj2 (Nat.eqb_neq p q)) by auto. reflexivity.
  - rewrite upd_length. exact L0.
  - intros x XP XQ. rewrite TX by auto. now apply set_parent_frame.
Qed.

Lemma set_parent_abs h (q p : ptr) x : q < List.length h ->
  cnames (tab (set_parent q p h) x) = cnames (tab h x) /\ ctypes (tab (set_parent q p h) x) = ctypes (tab h x)
  /\ rows (tab (set_parent q p h) x) = rows (tab h x).
Proof.
  intros Q. rewrite set_parent_tab by auto. destruct (Nat.eqb_spec x q) as [->|]; cbn; auto.
Qed.

(** It is stored exactly when the cell exists and belongs to a column of tables.  By index the
    effect is the same. *)
Theorem C51_SetTable_accepts : forall h (p q : ptr) c cn r, wf_heap h -> p < List.length h -> q < List.length h ->
  col_at (tab h p) c cn ->
  (nth_error (ctypes (tab h p)) (Z.to_nat c) = Some "*Table" /\ (0 <= r < RowCount (tab h p))%Z
     <-> exists h', SetTable p cn r (Some q) h = (h', Ok tt))
  /\ SetTableByColIndex p c r (Some q) h = SetTable p cn r (Some q) h
  /\ SetTable p cn r None h = (h, Err) /\ SetTableByColIndex p c r None h = (h, Err).
Proof.
  intros h p q c cn r W P Q C. unfold SetTable, SetTableByColIndex. set (h0 := set_parent q p h) in *.
  destruct (set_parent_wf q p h W P) as [W0 L0]. fold h0 in W0, L0. assert (P0 : p < List.length h0) by lia.
  destruct (set_parent_abs h q p p Q) as (EC & ET & ER). fold h0 in EC, ET, ER.
  assert (C0 : col_at (tab h0 p) c cn) by (unfold col_at in *; rewrite EC; exact C).
  pose proof (nth_tab h0 p P0) as NP. destruct (tab_wf h0 p W0) as [WT _].
  assert (IT : In "*Table" all_types) by now repeat (first [left; reflexivity|right]).
  pose proof (SetT_eq "*Table" cn r (VTable (Some q)) (mkS (tab h0 p) (List.length h0) []) WT IT eq_refl) as A. cbn [s_tab] in A.
  pose proof (SetTByColIndex_eq "*Table" c r (VTable (Some q)) (mkS (tab h0 p) (List.length h0) []) WT IT eq_refl (col_at_range _ _ _ C0)) as B. cbn [s_tab] in B.
  assert (RR : RowCount (tab h0 p) = RowCount (tab h p)) by (unfold RowCount; now rewrite ER).
  destruct C0 as [C00 C0]. unfold on_heap. rewrite NP. split; [|split; [|auto]].
  - destruct A as [(i & ct & _ & Hr & N & T & HT & ES)|[N ES]]; rewrite ES.
    + split; [eauto|]. intros _. rewrite <- ET, <- RR. split; [|exact Hr].
      assert (i = Z.to_nat c).
      { apply (proj1 (NoDup_nth_error _) (wf_nodup _ WT)); [now apply nth_error_some_lt in N|congruence]. }
      subst i. rewrite T. cbn in HT. now rewrite HT.
    + split; [|intros [h' X]; discriminate]. intros [T Hr]. destruct N. exists (Z.to_nat c), "*Table".
      rewrite ET, RR. repeat split; auto; lia.
  - destruct A as [(i & ct & _ & Hr & N & T & HT & ES)|[N ES]]; rewrite ES.
    + assert (i = Z.to_nat c).
      { apply (proj1 (NoDup_nth_error _) (wf_nodup _ WT)); [now apply nth_error_some_lt in N|congruence]. }
      subst i. destruct B as [(ct' & _ & _ & _ & _ & EB)|[NB _]]; [now rewrite EB|].
      destruct NB. exists ct. repeat split; auto; lia.
    + destruct B as [(ct' & NN & HR & T & HT & _)|[_ EB]]; [|now rewrite EB].
      destruct N. exists (Z.to_nat c), ct'. repeat split; auto; lia.
Qed.

(** A rejected nested table loses its parent all the same: the rejecting table becomes its
    parent although it does not contain it. *)
Theorem C51_SetTable_rejected_refuted : forall h (p q : ptr) cn r, wf_heap h -> p < List.length h -> q < List.length h ->
  (forall h', SetTable p cn r (Some q) h <> (h', Ok tt)) ->
  exists h', SetTable p cn r (Some q) h = (h', Err)
    /\ tab h' q = with_parent (Some p) (tab h q) /\ forall x, x <> q -> nth_error h' x = nth_error h x.
Proof.
  intros h p q cn r W P Q N. unfold SetTable in *. set (h0 := set_parent q p h) in *.
  destruct (set_parent_wf q p h W P) as [W0 L0]. fold h0 in W0, L0. assert (P0 : p < List.length h0) by lia.
  pose proof (nth_tab h0 p P0) as NP. destruct (tab_wf h0 p W0) as [WT _].
  assert (IT : In "*Table" all_types) by now repeat (first [left; reflexivity|right]).
  pose proof (SetT_eq "*Table" cn r (VTable (Some q)) (mkS (tab h0 p) (List.length h0) []) WT IT eq_refl) as A. cbn [s_tab] in A.
  unfold on_heap in *. rewrite NP in *. destruct A as [(i & ct & _ & _ & _ & _ & _ & ES)|[_ ES]]; rewrite ES in N |- *.
  - exfalso. eapply N. reflexivity.
  - cbn [s_tab s_news new_nils map]. rewrite app_nil_r. rewrite (upd_same h0 p (tab h0 p) NP). exists h0. split; [reflexivity|].
    split; [unfold h0; rewrite set_parent_tab, Nat.eqb_refl by auto; reflexivity|]. intros x X. now apply set_parent_frame.
Qed.

(** The hypotheses are met: a table with all kinds of columns, a table sorted by its keys and
    a program state with nested tables. *)
Example C51_nonvacuous :
  wf_table sample /\ col_at sample 3 "code"
  /\ HasCell sample "price" 1 = Ok true /\ HasCell sample "price" 3 = Err /\ HasCellByColIndex sample 2 1 = Ok true
  /\ IsColType sample "code" "byte" = Ok true /\ IsColType sample "code" "uint8" = Ok false /\ IsTableCol sample "child" = Ok true
  /\ GetTMustGet "uint8" sample "code" 0 = GetT "uint8" sample "code" 0 /\ GetTMustGet "int" sample "code" 0 = Panic
  /\ JoinColVals [] sample "id" ", " = Ok "7, -3, 7"
  /\ IsValidColValue sample "code" (VInt KUint8 1) = Err /\ IsValidColValue sample "id" (VInt KInt 1) = Ok true
  /\ List.length (rows (fst (run (NewTableFromRowsBySearchRange Proofs_Env.env0 stock_sorted "Part" [VString "b"; VInt KInt 1]) 0 NewNilTable))) = 2
  /\ wf_heap Props_Walk.deep_heap /\ snd (SetTable 0 "kid" 0 (Some 2) Props_Walk.deep_heap) = Ok tt
  /\ snd (SetTable 0 "id" 0 (Some 2) Props_Walk.deep_heap) = Err
  /\ parent (tab Props_Walk.deep_heap 2) = Some 1 /\ parent (tab (fst (SetTable 0 "id" 0 (Some 2) Props_Walk.deep_heap)) 2) = Some 0.
Proof.
  split; [apply wf_sample|]. split; [split; [lia|reflexivity]|].
  do 12 (split; [vm_compute; reflexivity|]).
  split; [exact (reachable_wf _ _ Proofs_Env.env0_ok Props_Walk.deep_reachable)|].
  do 3 (split; [vm_compute; reflexivity|]). vm_compute. reflexivity.
Qed.

(** Axioms used by any theorem of this file. *)
Definition all_Props_Query :=
  (@C51_HasCell,
   @C51_HasCellByColIndex,
   @C51_IsColType,
   @C51_IsTableCol,
   @C51_MustGet,
   @C51_MustSet,
   @C51_column_strings,
   @C51_unknown_column_refuted,
   @C51_IsValidCellValue,
   @C51_IsValidCellValue_refuted,
   @C51_by_name,
   @C51_no_such_column,
   @C51_NewTableFromRowsBySearchRange,
   @C51_GetCellInfo,
   @C51_GetCellInfo_refuted,
   @C51_SetTable,
   @C51_SetTable_accepts,
   @C51_SetTable_rejected_refuted).
Print Assumptions all_Props_Query.
