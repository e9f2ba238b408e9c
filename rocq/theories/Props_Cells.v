(** Props_Cells.v -- properties of reading and writing cells: C02, C03, C04, C05, C17, C41, C42. *)
From Coq Require Import ZArith NArith List String Ascii Bool SpecFloat Permutation Lia.
From Verif Require Import Base Model_Names Model_Table Model_Sort Spec.
From Verif Require Import Proofs_Lib Proofs_Table Proofs_Cells Proofs_Struct Proofs_Api Proofs_Pres Proofs_Zero Samples.
Import ListNotations.
Local Open Scope string_scope.
Local Open Scope list_scope.

(** ---------- C02: read your write, and nothing else changes ---------- *)

Theorem C02_SetValByColIndex : forall t b c r v t',
  wf_table t -> go_value v = true ->
  run (SetValByColIndex c r v) b t = (t', Ok tt) ->
  only_cell_changed t t' c r v.
Proof.
  intros t b c r v t' W G R.
  destruct (SetValByColIndex_eq c r v (mkS t b []) W) as [[(NN & Hr & ct & C0 & T & HT) E]|[_ E]];
    apply run_eq in E; rewrite R in E; [|discriminate]. injection E as ->.
  apply (written_spec t b c r v); auto. split; [auto|split; [auto|eauto]].
Qed.

Theorem C02_SetVal : forall t b cn r v t',
  wf_table t -> go_value v = true ->
  run (SetVal cn r v) b t = (t', Ok tt) ->
  GetVal t' cn r = Ok v
  /\ (forall cn' r', (cn', r') <> (cn, r) -> GetVal t' cn' r' = GetVal t cn' r')
  /\ same_header t t' /\ RowCount t' = RowCount t.
Proof.
  intros t b cn r v t' W G R.
  destruct (SetVal_eq cn r v (mkS t b []) W) as [(i & ct & NN & Hr & C & T & HT & E)|[_ E]];
    apply run_eq in E; rewrite R in E; [|discriminate]. injection E as ->. simpl in *.
  replace i with (Z.to_nat (Z.of_nat i)) by lia.
  destruct (written_spec t b (Z.of_nat i) r v W G) as [W' O].
  { split; [lia|split; [auto|]]. rewrite Nat2Z.id. eauto. }
  destruct (only_by_name _ _ _ _ _ cn W W' O) as [A B]; [now apply col_at_nat|].
  repeat split; auto; apply O || apply (occ_header _ _ _ _ _ O).
Qed.

Theorem C02_typed_by_name : forall vt t b cn r v t',
  wf_table t -> In vt all_types -> arg_of_type vt v = true -> go_value v = true ->
  run (SetT vt cn r v) b t = (t', Ok tt) ->
  GetT vt t' cn r = Ok v /\ GetVal t' cn r = Ok v
  /\ (forall cn' r', (cn', r') <> (cn, r) -> GetVal t' cn' r' = GetVal t cn' r')
  /\ same_header t t' /\ RowCount t' = RowCount t.
Proof.
  intros vt t b cn r v t' W Hvt Ha G R.
  destruct (SetT_eq vt cn r v (mkS t b []) W Hvt Ha) as [(i & ct & NN & Hr & C & T & HT & E)|[_ E]];
    apply run_eq in E; rewrite R in E; [|discriminate]. injection E as ->. simpl in *.
  replace i with (Z.to_nat (Z.of_nat i)) by lia.
  destruct (written_spec t b (Z.of_nat i) r v W G) as [W' O].
  { split; [lia|split; [auto|]]. rewrite Nat2Z.id. eauto. }
  destruct (only_by_name _ _ _ _ _ cn W W' O) as [A B]; [now apply col_at_nat|].
  assert (GT : GetT vt (s_tab (written (Z.to_nat (Z.of_nat i)) (Z.to_nat r) v (mkS t b []))) cn r = Ok v).
  { destruct (GetT_eq vt _ cn r W' Hvt) as [(c' & ct' & C' & T' & SG & Hr' & E & _)|[N _]].
    - rewrite E, <- A. symmetry. now apply GetVal_col_at.
    - exfalso. apply N. exists (Z.of_nat i), ct.
      rewrite (same_header_col_at _ _ _ _ (occ_header _ _ _ _ _ O)).
      rewrite (sh_types _ _ (occ_header _ _ _ _ _ O)), (occ_rows _ _ _ _ _ O), Nat2Z.id.
      split; [now apply col_at_nat|]. repeat split; auto; try lia.
      apply (has_type_fun vt ct v); auto. apply arg_has_type; auto. now apply (not_nil_arg_value vt). }
  repeat split; auto; apply O || apply (occ_header _ _ _ _ _ O).
Qed.

Theorem C02_typed_by_index : forall vt t b c r v t',
  wf_table t -> In vt all_types -> arg_of_type vt v = true -> go_value v = true ->
  run (SetTByColIndex vt c r v) b t = (t', Ok tt) ->
  GetTByColIndex vt t' c r = Ok v /\ only_cell_changed t t' c r v.
Proof.
  intros vt t b c r v t' W Hvt Ha G R.
  destruct (HasColByColIndex t c) eqn:HC.
  2:{ destruct (not_nil_arg v) eqn:NN.
      - pose proof (SetTByColIndex_panic vt c r v (mkS t b []) W NN) as E.
        apply run_eq in E; [rewrite R in E; discriminate|]. intros H. apply HasCol_iff in H. simpl in H. congruence.
      - unfold run, SetTByColIndex in R. rewrite bind_check, NN in R. discriminate. }
  apply HasCol_iff in HC.
  destruct (SetTByColIndex_eq vt c r v (mkS t b []) W Hvt Ha HC) as [(ct & NN & Hr & T & HT & E)|[_ E]];
    apply run_eq in E; rewrite R in E; [|discriminate]. injection E as ->. simpl in Hr, T.
  destruct (written_spec t b c r v W G) as [W' O].
  { split; [lia|split; [auto|]]. eauto. }
  split; [|exact O].
  destruct (GetTByColIndex_eq vt _ c r W' Hvt) as [(ct' & C' & T' & SG & Hr' & E & _)|[N _]].
  - etransitivity; [exact E|]. apply (occ_here _ _ _ _ _ O).
  - exfalso. apply N. exists ct. unfold ColCount in *.
    rewrite (sh_cols _ _ (occ_header _ _ _ _ _ O)), (sh_types _ _ (occ_header _ _ _ _ _ O)), (occ_rows _ _ _ _ _ O).
    repeat split; auto; try lia.
    apply (has_type_fun vt ct v); auto. apply arg_has_type; auto. now apply (not_nil_arg_value vt).
Qed.

(** Hypotheses are met: four successful writes on the sample table, one through an alias. *)
Example C02_nonvacuous :
  snd (run (SetValByColIndex 2 1 (VFloat64 S754_nan)) 10 sample) = Ok tt
  /\ snd (run (SetVal "data" 0 (VBytes (Some ["a"%char]))) 10 sample) = Ok tt
  /\ snd (run (SetT "byte" "code" 1 (VInt KUint8 9)) 10 sample) = Ok tt
  /\ snd (run (SetTByColIndex "[]uint8" 4 2 (VBytes (Some ["z"%char]))) 10 sample) = Ok tt
  /\ wf_table sample.
Proof. do 4 (split; [vm_compute; reflexivity|]). apply wf_sample. Qed.

(** ---------- C03: rejected writes change nothing; accepted exactly when the cell admits the value ---------- *)

Theorem C03_SetValByColIndex : forall t b c r v, wf_table t ->
  (writable t c r v -> exists t', run (SetValByColIndex c r v) b t = (t', Ok tt))
  /\ (~ writable t c r v -> run (SetValByColIndex c r v) b t = (t, Err)).
Proof.
  intros t b c r v W.
  destruct (SetValByColIndex_eq c r v (mkS t b []) W) as [[(NN & Hr & ct & C0 & T & HT) E]|[N E]];
    apply run_eq in E; rewrite E; split; eauto; intros H; exfalso; simpl in *.
  - apply H. split; [auto|split; [auto|eauto]].
  - destruct H as (H1 & H2 & ct & H3 & H4). apply N.
    split; [eapply has_type_not_nil; eauto|]. split; auto. exists ct. auto.
Qed.

Theorem C03_SetVal : forall t b cn r v, wf_table t ->
  ((exists c, col_at t c cn /\ writable t c r v) -> exists t', run (SetVal cn r v) b t = (t', Ok tt))
  /\ (~ (exists c, col_at t c cn /\ writable t c r v) -> run (SetVal cn r v) b t = (t, Err)).
Proof.
  intros t b cn r v W.
  destruct (SetVal_eq cn r v (mkS t b []) W) as [(i & ct & NN & Hr & C & T & HT & E)|[N E]];
    apply run_eq in E; rewrite E; split; eauto; intros H; exfalso; simpl in *.
  - apply H. exists (Z.of_nat i). split; [now apply col_at_nat|]. split; [lia|split; [auto|]]. rewrite Nat2Z.id. eauto.
  - destruct H as (c & [C0 C] & H1 & H2 & ct & H3 & H4). apply N.
    exists (Z.to_nat c), ct. repeat split; auto; try lia. eapply has_type_not_nil; eauto.
Qed.

(** The typed setters additionally refuse a nil []byte. *)
Theorem C03_typed_by_name : forall vt t b cn r v, wf_table t -> In vt all_types -> arg_of_type vt v = true ->
  ((v <> VBytes None /\ exists c, col_at t c cn /\ writable t c r v) ->
      exists t', run (SetT vt cn r v) b t = (t', Ok tt))
  /\ (~ (v <> VBytes None /\ exists c, col_at t c cn /\ writable t c r v) -> run (SetT vt cn r v) b t = (t, Err)).
Proof.
  intros vt t b cn r v W Hvt Ha.
  destruct (SetT_eq vt cn r v (mkS t b []) W Hvt Ha) as [(i & ct & NN & Hr & C & T & HT & E)|[N E]];
    apply run_eq in E; rewrite E; split; eauto; intros H; exfalso; simpl in *.
  - apply H. split; [intros ->; discriminate|].
    exists (Z.of_nat i). split; [now apply col_at_nat|]. split; [lia|split; [auto|]]. rewrite Nat2Z.id. eauto.
  - destruct H as (NB & c & [C0 C] & H1 & H2 & ct & H3 & H4). apply N.
    exists (Z.to_nat c), ct. repeat split; auto; try lia.
    destruct (has_type_not_nil_arg ct v H4); [auto|contradiction].
Qed.

(** By index: for column indexes in range (see C42 for the others). *)
Theorem C03_typed_by_index : forall vt t b c r v, wf_table t -> In vt all_types -> arg_of_type vt v = true ->
  (0 <= c < ColCount t)%Z ->
  ((v <> VBytes None /\ writable t c r v) -> exists t', run (SetTByColIndex vt c r v) b t = (t', Ok tt))
  /\ (~ (v <> VBytes None /\ writable t c r v) -> run (SetTByColIndex vt c r v) b t = (t, Err)).
Proof.
  intros vt t b c r v W Hvt Ha HC.
  destruct (SetTByColIndex_eq vt c r v (mkS t b []) W Hvt Ha HC) as [(ct & NN & Hr & T & HT & E)|[N E]];
    apply run_eq in E; rewrite E; split; eauto; intros H; exfalso; simpl in *.
  - apply H. split; [intros ->; discriminate|]. split; [lia|split; [auto|]]. eauto.
  - destruct H as (NB & H1 & H2 & ct & H3 & H4). apply N.
    exists ct. repeat split; auto; try lia.
    destruct (has_type_not_nil_arg ct v H4); [auto|contradiction].
Qed.

(** Rejections of every kind happen on the sample table: no such column, no such row,
    nil, wrong type. *)
Example C03_nonvacuous :
  run (SetVal "nocol" 0 (VInt KInt 1)) 10 sample = (sample, Err)
  /\ run (SetVal "id" 3 (VInt KInt 1)) 10 sample = (sample, Err)
  /\ run (SetVal "id" 0 VNil) 10 sample = (sample, Err)
  /\ run (SetT "*Table" "child" 0 (VTable None)) 10 sample = (sample, Err)
  /\ run (SetVal "id" 0 (VInt KInt64 1)) 10 sample = (sample, Err).
Proof. vm_compute. auto. Qed.

(** ---------- C04: typed getters ---------- *)

Theorem C04_typed_getter_by_name : forall vt t cn r, wf_table t -> In vt all_types ->
  ((exists c ct, col_at t c cn /\ nth_error (ctypes t) (Z.to_nat c) = Some ct /\ same_go_type vt ct /\ (0 <= r < RowCount t)%Z)
     -> exists v, GetT vt t cn r = Ok v /\ has_type vt v /\ GetVal t cn r = Ok v)
  /\ (~ (exists c ct, col_at t c cn /\ nth_error (ctypes t) (Z.to_nat c) = Some ct /\ same_go_type vt ct /\ (0 <= r < RowCount t)%Z)
     -> GetT vt t cn r = Err).
Proof.
  intros vt t cn r W Hvt.
  destruct (GetT_eq vt t cn r W Hvt) as [(c & ct & C & T & SG & Hr & E & v & V & HT)|[N E]]; split; intros H.
  - exists v. rewrite (GetVal_col_at t c) by auto. split; [congruence|auto].
  - exfalso. apply H. exists c, ct. auto.
  - contradiction.
  - auto.
Qed.

Theorem C04_typed_getter_by_index : forall vt t c r, wf_table t -> In vt all_types ->
  ((exists ct, (0 <= c < ColCount t)%Z /\ nth_error (ctypes t) (Z.to_nat c) = Some ct /\ same_go_type vt ct /\ (0 <= r < RowCount t)%Z)
     -> exists v, GetTByColIndex vt t c r = Ok v /\ has_type vt v /\ GetValByColIndex t c r = Ok v)
  /\ (~ (exists ct, (0 <= c < ColCount t)%Z /\ nth_error (ctypes t) (Z.to_nat c) = Some ct /\ same_go_type vt ct /\ (0 <= r < RowCount t)%Z)
     -> GetTByColIndex vt t c r = Err).
Proof.
  intros vt t c r W Hvt.
  destruct (GetTByColIndex_eq vt t c r W Hvt) as [(ct & C & T & SG & Hr & E & v & V & HT)|[N E]]; split; intros H.
  - exists v. split; [congruence|auto].
  - exfalso. apply H. exists ct. auto.
  - contradiction.
  - auto.
Qed.

(** The untyped getter: succeeds exactly on existing cells. *)
Theorem C04_GetValByColIndex : forall t c r, wf_table t ->
  ((0 <= c < ColCount t)%Z /\ (0 <= r < RowCount t)%Z ->
     exists ct v, nth_error (ctypes t) (Z.to_nat c) = Some ct /\ GetValByColIndex t c r = Ok v /\ cell_ok ct v)
  /\ (~ ((0 <= c < ColCount t)%Z /\ (0 <= r < RowCount t)%Z) -> GetValByColIndex t c r = Err).
Proof.
  intros t c r W. split.
  - intros [Hc Hr]. destruct (wf_cell t W c r Hc Hr) as (ct & v & T & _ & C & OK).
    exists ct, v. split; auto. split; auto. unfold GetValByColIndex.
    rewrite (wf_row_not_nil t r W Hr), (proj2 (HasRow_iff t r) Hr), (proj2 (HasCol_iff t c) Hc). exact C.
  - intros N. unfold GetValByColIndex. destruct (is_nil t); auto.
    destruct (HasRow t r) eqn:HR; simpl; auto. destruct (HasColByColIndex t c) eqn:HC; simpl; auto.
    apply HasRow_iff in HR. apply HasCol_iff in HC. tauto.
Qed.

Example C04_nonvacuous :
  GetT "uint8" sample "code" 2 = Ok (VInt KUint8 255) /\ GetT "byte" sample "code" 2 = Ok (VInt KUint8 255)
  /\ GetT "int" sample "code" 2 = Err /\ GetTByColIndex "*Table" sample 5 1 = Ok (VTable (Some 2))
  /\ GetTByColIndex "*Table" sample 7 1 = Err.
Proof. vm_compute. auto. Qed.

(** ---------- C05: by name and by index agree ---------- *)

Theorem C05_queries : forall t c cn, wf_table t -> col_at t c cn ->
  ColIndex t cn = Ok c /\ ColName t c = Ok cn /\ HasCol t cn = Ok true
  /\ ColType t cn = ColTypeByColIndex t c
  /\ (forall r, GetVal t cn r = GetValByColIndex t c r)
  /\ (forall vt r, In vt all_types -> GetT vt t cn r = GetTByColIndex vt t c r).
Proof.
  intros t c cn W C. pose proof (col_at_range _ _ _ C) as Hc.
  assert (CI : ColIndex t cn = Ok c) by now apply ColIndex_col_at.
  assert (CT : ColType t cn = ColTypeByColIndex t c).
  { destruct (wf_type_at _ W (Z.to_nat c)) as (ct & T & Hct); [unfold ColCount in Hc; lia|].
    rewrite ColTypeByColIndex_eq, (proj2 (HasCol_iff t c) Hc), T by auto.
    apply wf_ColType_iff; auto. exists (Z.to_nat c). split; auto. apply C. }
  repeat split; auto.
  - rewrite ColName_eq, (proj2 (HasCol_iff t c) Hc). f_equal. apply nth_error_nth. apply C.
  - rewrite wf_HasCol by auto. destruct (in_dec string_dec cn (cnames t)) as [I|I]; auto.
    exfalso. apply I. apply col_at_In. eauto.
  - intros r. now apply GetVal_col_at.
  - intros vt r Hvt. unfold GetT, GetTByColIndex. rewrite CT, CI.
    destruct (ColTypeByColIndex t c); simpl; auto. 
Qed.

Theorem C05_SetVal : forall t b c cn r v, wf_table t -> col_at t c cn ->
  run (SetVal cn r v) b t = run (SetValByColIndex c r v) b t.
Proof.
  intros t b c cn r v W C. unfold run, SetVal. 
  assert (CI : ColIndex t cn = Ok c) by now apply ColIndex_col_at.
  rewrite bind_check, bind_reads. simpl s_tab. rewrite CI.
  unfold SetValByColIndex. rewrite bind_check. destruct (not_nil_value v); reflexivity.
Qed.

Theorem C05_typed_setters : forall vt t b c cn r v, wf_table t -> col_at t c cn ->
  run (SetT vt cn r v) b t = run (SetTByColIndex vt c r v) b t.
Proof.
  intros vt t b c cn r v W C. unfold run, SetT, SetTByColIndex. pose proof (col_at_range _ _ _ C) as Hc.
  assert (CI : ColIndex t cn = Ok c) by now apply ColIndex_col_at.
  rewrite !bind_check. destruct (not_nil_arg v); auto. rewrite !bind_reads. simpl s_tab.
  destruct (C05_queries t c cn W C) as (_ & _ & _ & CT & _). rewrite CT.
  destruct (wf_type_at _ W (Z.to_nat c)) as (ct & T & Hct); [unfold ColCount in Hc; lia|].
  rewrite ColTypeByColIndex_eq, (proj2 (HasCol_iff t c) Hc), T by auto.
  replace (znth (ctypes t) c) with (Some ct) by (symmetry; apply znth_some; split; auto; lia).
  rewrite !bind_check. destruct (type_ok vt ct); auto. rewrite bind_reads. simpl s_tab. now rewrite CI.
Qed.

(** Names that are not columns are errors everywhere. *)
Theorem C05_no_such_column : forall t cn r, wf_table t -> ~ In cn (cnames t) ->
  ColIndex t cn = Err /\ HasCol t cn = Ok false /\ ColType t cn = Err /\ GetVal t cn r = Err.
Proof.
  intros t cn r W N. repeat split.
  - destruct (ColIndex_cases t cn W) as [(i & H & _)|[_ H]]; auto. apply nth_error_In in H. contradiction.
  - rewrite wf_HasCol by auto. destruct (in_dec string_dec cn (cnames t)); auto. contradiction.
  - now apply wf_ColType_err.
  - now apply GetVal_no_col.
Qed.

Example C05_nonvacuous : wf_table sample /\ col_at sample 4 "data" /\ ~ In "Data" (cnames sample).
Proof.
  split; [apply wf_sample|]. split; [split; [discriminate|reflexivity]|].
  simpl. intros H. repeat (destruct H as [H|H]; [discriminate|]). exact H.
Qed.

(** ---------- C17: names ---------- *)

Theorem C17_column_names : forall s, IsValidColName s = true <-> valid_name s.
Proof. exact IsValidColName_spec. Qed.
Theorem C17_table_names : forall s, IsValidTableName s = true <-> valid_name s.
Proof. exact IsValidTableName_spec. Qed.

(** On ASCII strings: a letter a-z A-Z or underscore, then letters, digits 0-9, underscores;
    and not a type name. *)
Definition ascii_letter (c : ascii) : Prop := between 65 90 c \/ between 97 122 c.
Definition ascii_digit (c : ascii) : Prop := between 48 57 c.

Theorem C17_ascii : forall s, Forall (fun c => N_of_ascii c < 128)%N (list_ascii_of_string s) ->
  IsValidColName s = true <->
  (exists c r, list_ascii_of_string s = c :: r /\ (ascii_letter c \/ c = "_"%char)
     /\ Forall (fun c => ascii_letter c \/ c = "_"%char \/ ascii_digit c) r)
  /\ ~ In s all_types.
Proof.
  intros s A. rewrite IsValidColName_spec. unfold valid_name.
  assert (L : forall c, (N_of_ascii c < 128)%N -> latin1_letter c <-> ascii_letter c).
  { intros c H. unfold latin1_letter, ascii_letter. rewrite !ascii_eq_N by lia. unfold between. lia. }
  assert (D : forall c, (N_of_ascii c < 128)%N -> latin1_number c <-> ascii_digit c).
  { intros c H. unfold latin1_number, ascii_digit. rewrite !ascii_eq_N by lia. unfold between. lia. }
  assert (K : (exists c r, list_ascii_of_string s = c :: r /\ name_start c /\ Forall name_char r) <->
     (exists c r, list_ascii_of_string s = c :: r /\ (ascii_letter c \/ c = "_"%char)
     /\ Forall (fun c => ascii_letter c \/ c = "_"%char \/ ascii_digit c) r)).
  { split; intros (c & r & E & H1 & H2); exists c, r; rewrite E in A; inversion A; subst; split; auto;
      unfold name_start, name_char, name_start in *; rewrite ?L in * by auto; split; auto.
    - rewrite Forall_forall in *. intros x Hx. specialize (H2 x Hx). rewrite L, D in H2 by auto. tauto.
    - rewrite Forall_forall in *. intros x Hx. specialize (H2 x Hx). rewrite L, D by auto. tauto. }
  rewrite K. tauto.
Qed.

Example C17_nonvacuous : IsValidColName "_x9" = true /\ IsValidColName "9x" = false
  /\ IsValidColName "" = false /\ IsValidColName "int" = false /\ IsValidTableName "a-b" = false.
Proof. vm_compute. auto. Qed.

(** ---------- C41: zero and NaN setters ---------- *)

Theorem C41_cell_zero : forall t b c r, wf_table t -> (0 <= c < ColCount t)%Z -> (0 <= r < RowCount t)%Z ->
  exists t', run (SetCellToZeroValueByColIndex c r) b t = (t', Ok tt)
   /\ zero_region t t' (fun p => b <= p) (fun c' r' => c' = c /\ r' = r).
Proof.
  intros t b c r W Hc Hr.
  destruct (zero_cell_eq false c r (mkS t b []) W Hc Hr) as (s' & v & ct & E & T & Z & N & W' & O).
  exists (s_tab s'). split; [now apply run_eq in E|]. simpl in *.
  eapply only_zero_region; eauto; [lia|]. eapply zero_of_mono; [|exact Z]. unfold next. simpl. intros. lia.
Qed.

Theorem C41_cell_zero_by_name : forall t b c cn r, wf_table t -> col_at t c cn ->
  run (SetCellToZeroValue cn r) b t = run (SetCellToZeroValueByColIndex c r) b t.
Proof.
  intros t b c cn r W C. unfold run, SetCellToZeroValue. rewrite bind_reads. simpl s_tab.
  now rewrite (proj1 (ColIndex_col_at t c cn W) C).
Qed.

Theorem C41_row_zero : forall t b r, wf_table t -> (0 <= r < RowCount t)%Z ->
  exists t', run (SetRowCellsToZeroValue r) b t = (t', Ok tt)
   /\ zero_region t t' (fun p => b <= p) (fun _ r' => r' = r).
Proof.
  intros t b r W Hr. destruct (SetRowCellsToZeroValue_region r (mkS t b []) W Hr) as (s' & E & W' & Z).
  exists (s_tab s'). split; [now apply run_eq in E|]. destruct Z as [H1 H2 H3 H4]. constructor; auto.
  intros c r' ct Hc Hr' HR T. destruct (H3 c r' ct Hc Hr' HR T) as (v & V & Zv). exists v. split; auto.
  eapply zero_of_mono; [|exact Zv]. unfold next. simpl. intros. lia.
Qed.

Theorem C41_col_zero : forall t b c, wf_table t -> (0 <= c < ColCount t)%Z ->
  exists t', run (SetColCellsToZeroValueByColIndex c) b t = (t', Ok tt)
   /\ zero_region t t' (fun p => b <= p) (fun c' _ => c' = c).
Proof.
  intros t b c W Hc. destruct (SetColCellsToZeroValueByColIndex_region c (mkS t b []) W Hc) as (s' & E & W' & Z).
  exists (s_tab s'). split; [now apply run_eq in E|]. destruct Z as [H1 H2 H3 H4]. constructor; auto.
  intros c' r' ct Hc' Hr' HR T. destruct (H3 c' r' ct Hc' Hr' HR T) as (v & V & Zv). exists v. split; auto.
  eapply zero_of_mono; [|exact Zv]. unfold next. simpl. intros. lia.
Qed.

Theorem C41_col_zero_by_name : forall t b c cn, wf_table t -> col_at t c cn ->
  run (SetColCellsToZeroValue cn) b t = run (SetColCellsToZeroValueByColIndex c) b t.
Proof.
  intros t b c cn W C. unfold run, SetColCellsToZeroValue. rewrite bind_reads. simpl s_tab.
  now rewrite (proj1 (ColIndex_col_at t c cn W) C).
Qed.

(** One float cell; a cell of another type is refused. *)
Theorem C41_cell_NaN : forall t b c r ct, wf_table t -> (0 <= c < ColCount t)%Z -> (0 <= r < RowCount t)%Z ->
  nth_error (ctypes t) (Z.to_nat c) = Some ct ->
  match nan_of ct with
  | Some v => exists t', run (SetFloatCellToNaNByColIndex c r) b t = (t', Ok tt) /\ only_cell_changed t t' c r v
  | None => run (SetFloatCellToNaNByColIndex c r) b t = (t, Err)
  end.
Proof.
  intros t b c r ct W Hc Hr T.
  destruct (SetFloatCellToNaNByColIndex_eq c r (mkS t b []) W Hc Hr) as (ct' & T' & M). simpl in T'.
  assert (ct' = ct) by congruence. subst ct'. destruct (nan_of ct).
  - destruct M as (s' & E & _ & O). exists (s_tab s'). split; auto. now apply run_eq in E.
  - now apply run_eq in M.
Qed.

Theorem C41_row_NaN : forall t b r, wf_table t -> (0 <= r < RowCount t)%Z ->
  exists t', run (SetRowFloatCellsToNaN r) b t = (t', Ok tt) /\ nan_region t t' (fun _ r' => r' = r).
Proof.
  intros t b r W Hr. destruct (SetRowFloatCellsToNaN_region r (mkS t b []) W Hr) as (s' & E & W' & Z).
  exists (s_tab s'). split; auto. now apply run_eq in E.
Qed.

Theorem C41_col_NaN : forall t b c ct, wf_table t -> (0 <= c < ColCount t)%Z ->
  nth_error (ctypes t) (Z.to_nat c) = Some ct -> nan_of ct <> None ->
  exists t', run (SetColFloatCellsToNaNByColIndex c) b t = (t', Ok tt) /\ nan_region t t' (fun c' _ => c' = c).
Proof.
  intros t b c ct W Hc T N. destruct (nan_of ct) as [v|] eqn:NV; [|congruence].
  destruct (SetColFloatCellsToNaNByColIndex_region c (mkS t b []) v ct W Hc T NV) as (s' & E & W' & Z).
  exists (s_tab s'). split; auto. now apply run_eq in E.
Qed.

Theorem C41_all_NaN : forall t b, wf_table t ->
  exists t', run SetAllFloatCellsToNaN b t = (t', Ok tt) /\ nan_region t t' (fun _ _ => True).
Proof.
  intros t b W. destruct (SetAllFloatCellsToNaN_region (mkS t b []) W) as (s' & E & W' & Z).
  exists (s_tab s'). split; auto. now apply run_eq in E.
Qed.

Example C41_nonvacuous :
  wf_table sample /\ GetVal (fst (run (SetRowCellsToZeroValue 0) 9 sample)) "id" 0 = Ok (VInt KInt 0)
  /\ GetVal (fst (run (SetRowCellsToZeroValue 0) 9 sample)) "child" 0 = Ok (VTable (Some 9))
  /\ GetVal (fst (run (SetColCellsToZeroValue "code") 9 sample)) "code" 2 = Ok (VInt KUint8 0)
  /\ GetVal (fst (run SetAllFloatCellsToNaN 9 sample)) "price" 2 = Ok (VFloat64 S754_nan).
Proof. split; [apply wf_sample|]. vm_compute. auto. Qed.

(** ---------- C42: out-of-range column indexes ---------- *)

(** Getters and the untyped setter report errors. *)
Theorem C42_errors : forall t b c r v vt, wf_table t -> In vt all_types -> ~ (0 <= c < ColCount t)%Z ->
  GetValByColIndex t c r = Err /\ GetTByColIndex vt t c r = Err
  /\ ColName t c = Err /\ ColTypeByColIndex t c = Err
  /\ run (SetValByColIndex c r v) b t = (t, Err)
  /\ run (DeleteColByColIndex c) b t = (t, Err)
  /\ run (SetFloatCellToNaNByColIndex c r) b t = (t, Err).
Proof.
  intros t b c r v vt W Hvt N.
  assert (HC : HasColByColIndex t c = false).
  { destruct (HasColByColIndex t c) eqn:E; auto. apply HasCol_iff in E. contradiction. }
  repeat split.
  - apply C04_GetValByColIndex; auto. tauto.
  - apply C04_typed_getter_by_index; auto. intros (ct & H & _). contradiction.
  - now rewrite ColName_eq, HC.
  - now rewrite ColTypeByColIndex_eq, HC by auto.
  - apply C03_SetValByColIndex; auto. intros H. apply writable_lt in H; auto.
  - unfold run. rewrite DeleteColByColIndex_eq. simpl s_tab. now rewrite HC.
  - unfold run, SetFloatCellToNaNByColIndex. rewrite bind_reads. simpl s_tab. now rewrite ColTypeByColIndex_eq, HC.
Qed.

(** The typed setters by index do not: every one of the twenty Set<type>ByColIndex
    methods panics for every out-of-range column index. *)
Theorem C42_typed_setters_panic : forall vt t b c r v, wf_table t -> In vt all_types ->
  arg_of_type vt v = true -> not_nil_arg v = true ->
  ~ (0 <= c < ColCount t)%Z -> run (SetTByColIndex vt c r v) b t = (t, Panic).
Proof.
  intros vt t b c r v W Hvt Ha NN N.
  pose proof (SetTByColIndex_panic vt c r v (mkS t b []) W NN N) as E. now apply run_eq in E.
Qed.

Theorem C42_zero_setters_panic : forall t b c r, wf_table t -> ~ (0 <= c < ColCount t)%Z ->
  run (SetCellToZeroValueByColIndex c r) b t = (t, Panic).
Proof.
  intros t b c r W N. unfold run, SetCellToZeroValueByColIndex. rewrite bind_reads. simpl s_tab.
  replace (znth (ctypes t) c) with (@None string); auto. symmetry. apply znth_none.
  rewrite (wf_types_len _ W). exact N.
Qed.

(** So the property as stated is false of the code. *)
Theorem C42_refuted : exists t c r vt v, wf_table t /\ In vt all_types /\ arg_of_type vt v = true /\
  ~ (0 <= c < ColCount t)%Z /\ snd (run (SetTByColIndex vt c r v) 10 t) = Panic
  /\ snd (run (SetCellToZeroValueByColIndex c r) 10 t) = Panic.
Proof.
  exists sample, 7%Z, 0%Z, "int", (VInt KInt 1). split; [apply wf_sample|].
  split; [now apply in_types|]. split; [reflexivity|]. split; [vm_compute; intuition discriminate|].
  vm_compute. auto.
Qed.

(** Axioms used by any theorem of this file. *)
Definition all_Props_Cells :=
  (@C02_SetValByColIndex,
   @C02_SetVal,
   @C02_typed_by_name,
   @C02_typed_by_index,
   @C03_SetValByColIndex,
   @C03_SetVal,
   @C03_typed_by_name,
   @C03_typed_by_index,
   @C04_typed_getter_by_name,
   @C04_typed_getter_by_index,
   @C04_GetValByColIndex,
   @C05_queries,
   @C05_SetVal,
   @C05_typed_setters,
   @C05_no_such_column,
   @C17_column_names,
   @C17_table_names,
   @C17_ascii,
   @C41_cell_zero,
   @C41_cell_zero_by_name,
   @C41_row_zero,
   @C41_col_zero,
   @C41_col_zero_by_name,
   @C41_cell_NaN,
   @C41_row_NaN,
   @C41_col_NaN,
   @C41_all_NaN,
   @C42_errors,
   @C42_typed_setters_panic,
   @C42_zero_setters_panic,
   @C42_refuted).
Print Assumptions all_Props_Cells.
