(** Props_Copy.v -- copying rows and columns between tables: C36, C37, C38, and the
    new-table half of C12. *)
From Coq Require Import ZArith NArith List String Ascii Bool SpecFloat Permutation Lia.
From Verif Require Import Base Model_Names Model_Table Model_Sort Model_Copy Spec Spec_Copy.
From Verif Require Import Proofs_Lib Proofs_Table Proofs_Cells Proofs_Struct Proofs_Api Proofs_Api2 Proofs_Pres Proofs_Copy Samples.
Import ListNotations.
Local Open Scope string_scope.
Local Open Scope list_scope.

(** ---------- C36: AppendRowsFromTable ---------- *)

Lemma next_0 t b : next (mkS t b []) = b.
Proof. unfold next. simpl. lia. Qed.

Lemma append_rows_from src t f first last b : wf_table t -> wf_table f -> src t = f -> stable src t f last ->
  is_nil t = false -> is_nil f = false ->
  exists t' r, run (AppendRowsFromTable src first last) b t = (t', r)
   /\ wf_table t' /\ same_header t t'
   /\ (forall c r, (r < RowCount t)%Z -> GetValByColIndex t' c r = GetValByColIndex t c r)
   /\ (r = Ok tt /\ ((last < first)%Z \/ cnames f = [] \/ (0 <= first)%Z /\ (last < RowCount f)%Z /\ has_cols_of t f)
         /\ rows_copied (fun p => b <= p) t t' f first (Z.max 0 (last - first + 1))
       \/ r = Err /\ ~ ((last < first)%Z \/ cnames f = [] \/ (0 <= first)%Z /\ (last < RowCount f)%Z /\ has_cols_of t f)).
Proof.
  intros W WF SF ST NT NF.
  destruct (AppendRowsFromTable_spec src (mkS t b []) first last) as (s' & new & W' & _ & _ & TB & FN & H);
    cbn [s_tab]; rewrite ?SF; auto.
  cbn [s_tab] in *. rewrite SF in *. rewrite next_0 in H.
  assert (OLD : forall c r, (r < RowCount t)%Z -> GetValByColIndex (s_tab s') c r = GetValByColIndex t c r).
  { intros c r Hr. rewrite !get_at by auto. unfold at_cell. rewrite TB. simpl.
    destruct (Z.leb_spec 0 c); simpl; auto. destruct (Z.leb_spec 0 r); simpl; auto.
    rewrite nth_error_app1 by (unfold RowCount in Hr; lia). reflexivity. }
  unfold rows_fit in H. rewrite compat_has_cols in H.
  destruct H as [(E & FIT & LN & CP)|(E & NO)]; apply run_eq in E; rewrite E; eexists; eexists; (split; [reflexivity|]).
  - split; auto. split; [rewrite TB; apply same_header_rows|]. split; auto. left. split; auto. split; auto.
    rewrite TB in *. replace (Z.max 0 (last - first + 1)) with (Z.of_nat (List.length new)) by lia.
    apply rows_copied_of; auto. intros NE. destruct FIT as [X|[X|X]]; [left; lia|congruence|].
    destruct (List.length new) eqn:EL; [auto|right]. lia.
  - split; auto. split; [rewrite TB; apply same_header_rows|]. split; auto.
Qed.

(** From another table: it succeeds exactly when the range is empty, or the source has
    no columns, or the rows exist in the source and the receiver has the source's
    columns.  On success the rows are copied in order.  In every case the receiver's
    own rows and its columns stay as they were.  (The source is only read.) *)
Theorem C36_AppendRowsFromTable : forall t f first last b, wf_table t -> wf_table f ->
  is_nil t = false -> is_nil f = false ->
  exists t' r, run (AppendRowsFromTable (fun _ => f) first last) b t = (t', r)
   /\ wf_table t' /\ same_header t t'
   /\ (forall c r, (r < RowCount t)%Z -> GetValByColIndex t' c r = GetValByColIndex t c r)
   /\ (r = Ok tt /\ ((last < first)%Z \/ cnames f = [] \/ (0 <= first)%Z /\ (last < RowCount f)%Z /\ has_cols_of t f)
         /\ rows_copied (fun p => b <= p) t t' f first (Z.max 0 (last - first + 1))
       \/ r = Err /\ ~ ((last < first)%Z \/ cnames f = [] \/ (0 <= first)%Z /\ (last < RowCount f)%Z /\ has_cols_of t f)).
Proof. intros. apply append_rows_from; auto using stable_const. Qed.

(** A table can append its own rows to itself: with a range within the table it always
    succeeds and duplicates those rows. *)
Theorem C36_AppendRowsFromTable_itself : forall t first last b, wf_table t -> is_nil t = false ->
  (0 <= first)%Z -> (last < RowCount t)%Z ->
  exists t', run (AppendRowsFromTable (fun x => x) first last) b t = (t', Ok tt)
   /\ wf_table t' /\ rows_copied (fun p => b <= p) t t' t first (Z.max 0 (last - first + 1)).
Proof.
  intros t first last b W NT F L.
  destruct (append_rows_from (fun x => x) t t first last b W W eq_refl (stable_id t last W NT L) NT NT)
    as (t' & r & E & W' & _ & _ & [(-> & _ & RC)|(-> & NO)]).
  - exists t'. auto.
  - exfalso. apply NO. right; right. split; auto. split; auto. intros c cn ct H1 H2. exists c, ct. split; auto. split; auto. now left.
Qed.

(** NilTables are rejected on either side. *)
Theorem C36_NilTable_rejected : forall t f first last b, is_nil t = true \/ is_nil f = true ->
  run (AppendRowsFromTable (fun _ => f) first last) b t = (t, Err).
Proof.
  intros t f first last b H. unfold run, AppendRowsFromTable. mstep. cbn [s_tab].
  destruct (is_nil t); [reflexivity|]. cbn [negb]. mstep. destruct H as [H|H]; [discriminate|]. rewrite H. reflexivity.
Qed.

(** NewTableFromRows: a new table with the source's columns and rows first..last. *)
Theorem C36_NewTableFromRows : forall t name first last b, wf_table t ->
  (valid_name name -> is_nil t = false -> (0 <= first)%Z -> (last < RowCount t)%Z ->
     exists t', run (NewTableFromRows t name first last) b NewNilTable = (t', Ok tt)
       /\ fresh_table name t' /\ cnames t' = cnames t /\ ctypes t' = ctypes t
       /\ rows t' = row_range t first last)
  /\ (~ valid_name name \/ is_nil t = true \/ cnames t <> [] /\ (first <= last)%Z /\ ((first < 0)%Z \/ (RowCount t <= last)%Z) ->
     exists t', run (NewTableFromRows t name first last) b NewNilTable = (t', Err)).
Proof.
  intros t name first last b W. split.
  - intros V N F L. destruct (NewTableFromRows_spec t name first last b W) as [(_ & _ & _ & t' & l & E & FT & C1 & C2 & _ & RR)|[NO _]].
    + exists t'. apply run_eq in E. split; auto. split; auto. split; auto.
    + exfalso. apply NO. split; auto.
  - intros BAD. destruct (NewTableFromRows_spec t name first last b W) as [(V & N & R & _)|[_ (s' & E)]].
    + exfalso. destruct BAD as [B|[B|(B1 & B2 & B3)]]; [tauto|congruence|]. destruct R as [R|[R|R]]; [lia|congruence|lia].
    + exists (s_tab s'). now apply run_eq in E.
Qed.

(** A copyable source: the sample table has all its own columns. *)
Example C36_nonvacuous :
  wf_table sample /\ is_nil sample = false /\ has_cols_of sample sample
  /\ GetVal (fst (run (AppendRowsFromTable (fun _ => sample) 1 2) 20 sample)) "id" 3 = Ok (VInt KInt (-3))
  /\ GetVal (fst (run (AppendRowsFromTable (fun _ => sample) 1 2) 20 sample)) "code" 4 = Ok (VInt KUint8 255)
  /\ snd (run (AppendRowsFromTable (fun _ => sample) 1 3) 20 sample) = Err
  /\ map (fun r => nth 0 r VNil) (rows (fst (run (NewTableFromRows sample "Part" 1 2) 20 NewNilTable))) = [VInt KInt (-3); VInt KInt 7].
Proof.
  split; [apply wf_sample|]. split; [reflexivity|].
  split; [intros c cn ct H1 H2; exists c, ct; split; auto; split; auto; now left|].
  repeat split; vm_compute; reflexivity.
Qed.

(** ---------- C37: AppendColsFromTable ---------- *)

Theorem C37_AppendColsFromTable : forall t f b, wf_table t -> wf_table f -> is_nil t = false -> is_nil f = false ->
  (shared_cols_agree t f ->
     exists t', run (AppendColsFromTable (fun _ => f)) b t = (t', Ok tt)
       /\ wf_table t' /\ cols_added (fun p => b <= p) (new_columns t f) t t')
  /\ (~ shared_cols_agree t f ->
     exists t' extra, run (AppendColsFromTable (fun _ => f)) b t = (t', Err)
       /\ wf_table t' /\ cols_added (fun p => b <= p) extra t t').
Proof.
  intros t f b W WF NT NF.
  pose proof (AppendColsFromTable_eq (fun _ => f) (mkS t b []) W WF) as E. cbn [s_tab] in E. rewrite NT, NF in E.
  destruct (wf_cols_of _ WF) as (_ & _ & _ & L4 & L5).
  destruct (absorb_loop (cols_of f) (mkS t b []) W NT L4 L5) as (s' & extra & W' & _ & _ & CE & H).
  rewrite next_0 in CE. cbn [s_tab] in *. rewrite agree_shared in H.
  pose proof (cols_added_of _ _ _ _ W W' CE) as CA.
  destruct H as [(EL & AG & EX)|(EL & NA)]; rewrite EL in E; apply run_eq in E; split; intros HA; try contradiction.
  - exists (s_tab s'). split; auto. split; auto. rewrite EX in CA. exact CA.
  - exists (s_tab s'), extra. auto.
Qed.

Theorem C37_NilTable_rejected : forall t f b, wf_table t -> wf_table f -> is_nil t = true \/ is_nil f = true ->
  run (AppendColsFromTable (fun _ => f)) b t = (t, Err).
Proof.
  intros t f b W WF H. pose proof (AppendColsFromTable_eq (fun _ => f) (mkS t b []) W WF) as E. cbn [s_tab] in E.
  destruct (is_nil t); [apply run_eq in E; exact E|]. destruct H as [H|H]; [discriminate|].
  rewrite H in E. apply run_eq in E; exact E.
Qed.

(** Appending a table's own columns to itself changes nothing. *)
Theorem C37_itself : forall t b, wf_table t -> is_nil t = false ->
  exists t', run (AppendColsFromTable (fun x => x)) b t = (t', Ok tt) /\ wf_table t'
    /\ cols_added (fun p => b <= p) [] t t'.
Proof.
  intros t b W NT.
  pose proof (AppendColsFromTable_eq (fun x => x) (mkS t b []) W W) as E. cbn [s_tab] in E. rewrite NT in E.
  destruct (wf_cols_of _ W) as (_ & L2 & _ & L4 & L5).
  destruct (absorb_loop (cols_of t) (mkS t b []) W NT L4 L5) as (s' & extra & W' & _ & _ & CE & H).
  rewrite next_0 in CE. cbn [s_tab] in *. rewrite agree_shared in H.
  assert (AG : shared_cols_agree t t).
  { intros i j cn ct ct' H1 H2 H3 H4. assert (i = j) by (eapply NoDup_nth; [apply (wf_nodup _ W)| |]; eauto). subst. congruence. }
  destruct H as [(EL & _ & EX)|(_ & NA)]; [|contradiction].
  exists (s_tab s'). rewrite EL in E. apply run_eq in E. split; auto. split; auto.
  replace (@nil (string * string)) with extra; [apply cols_added_of; auto|].
  rewrite EX. unfold missing. rewrite <- L2.
  assert (G : forall l, (forall p, In p l -> In (fst p) (map fst (cols_of t))) ->
    filter (fun p : string * string => if in_dec string_dec (fst p) (map fst (cols_of t)) then false else true) l = []).
  { induction l as [|p l IH]; simpl; auto. intros G. destruct (in_dec _ _ _) as [|N]; [auto|]. exfalso. apply N, G. auto. }
  apply G. intros p I. now apply in_map.
Qed.

Definition other_build : M unit :=
  SetName "Other" ;;; AppendCol "item" "string" ;;; AppendCol "note" "string" ;;; AppendCol "id" "int" ;;; AppendRows 2.
Definition other : table := Eval vm_compute in fst (run other_build 1 NewNilTable).
Lemma wf_other : wf_table other.
Proof.
  change other with (fst (run other_build 1 NewNilTable)). apply run_pres.
  - unfold other_build. pr; auto using pres_SetName, pres_AppendCol, pres_AppendRows.
  - apply wf_NewNilTable.
  - constructor.
Qed.

Example C37_nonvacuous :
  wf_table sample /\ wf_table other /\ is_nil other = false
  /\ shared_cols_agree sample other
  /\ new_columns sample other = [("note", "string")]
  /\ cnames (fst (run (AppendColsFromTable (fun _ => other)) 20 sample)) = cnames sample ++ ["note"].
Proof.
  split; [apply wf_sample|]. split; [apply wf_other|]. split; [reflexivity|]. split.
  - intros i j cn ct ct' H1 H2 H3 H4.
    do 3 (destruct j as [|j]; [simpl in H3, H4; injection H3 as <-; injection H4 as <-;
      do 7 (destruct i as [|i]; [simpl in H1, H2; congruence|]); destruct i; discriminate|]).
    destruct j; discriminate.
  - split; vm_compute; reflexivity.
Qed.

(** ---------- C38: column information ---------- *)

(** GetColInfoAsTable gives a table of RowCount = ColCount rows; row i gives the index,
    name and type of column i.  It is well formed as long as the number of columns is
    an int. *)
Theorem C38_GetColInfoAsTable : forall t, wf_table t -> is_nil t = false ->
  exists ti, GetColInfoAsTable t = Ok ti
    /\ tname ti = "ColInfo" /\ is_nil ti = false
    /\ cnames ti = ["index"; "colName"; "colType"] /\ ctypes ti = ["int"; "string"; "string"]
    /\ rows ti = map (fun p => [VInt KInt (fst p); VString (fst (snd p)); VString (snd (snd p))])
                     (combine (zseq (List.length (cnames t))) (combine (cnames t) (ctypes t)))
    /\ RowCount ti = ColCount t
    /\ ((ColCount t <= imax KInt)%Z -> wf_table ti).
Proof.
  intros t W NT. exists (colinfo t). split. { rewrite GetColInfoAsTable_eq, NT by auto. reflexivity. }
  split; [reflexivity|]. split; [reflexivity|]. split; [reflexivity|]. split; [reflexivity|].
  assert (RW : rows (colinfo t) = map (fun p => [VInt KInt (fst p); VString (fst (snd p)); VString (snd (snd p))])
                     (combine (zseq (List.length (cnames t))) (combine (cnames t) (ctypes t)))).
  { apply nth_error_ext. intros k. rewrite nth_error_map, !nth_error_combine, nth_error_zseq.
    destruct (Nat.ltb_spec k (List.length (cnames t))) as [H|H].
    - destruct (nth_error_lt (cnames t) k H) as [cn Hcn]. destruct (wf_type_at _ W k H) as (ct & Hct & _).
      rewrite Hcn, Hct, (colinfo_row_at t k H). cbn [option_map fst snd]. unfold colinfo_row.
      now rewrite (nth_error_nth _ _ "" Hcn), (nth_error_nth _ _ "" Hct).
    - apply nth_error_None. rewrite colinfo_rows_length. exact H. }
  split; [exact RW|].
  split. { unfold RowCount, ColCount. rewrite RW, map_length, !combine_length, zseq_length, (wf_types_len _ W), Nat.min_id, Nat.min_id. reflexivity. }
  intros LM. constructor.
  - left. split; [reflexivity|]. apply IsValidTableName_spec. reflexivity.
  - simpl. repeat constructor; simpl; intuition congruence.
  - simpl. repeat constructor; apply IsValidColName_spec; reflexivity.
  - reflexivity.
  - simpl. repeat constructor; apply in_types; reflexivity.
  - intros n i. change (cmap (colinfo t)) with [("colType", 2); ("colName", 1); ("index", 0)].
    change (cnames (colinfo t)) with ["index"; "colName"; "colType"].
    unfold mget. simpl.
    repeat match goal with |- context [String.eqb ?a ?b] => destruct (String.eqb_spec a b) as [->|?] end;
      (split; [intros X; try discriminate; injection X as <-; reflexivity|]);
      (destruct i as [|[|[|i]]]; simpl; intros X; try congruence; destruct i; discriminate).
  - rewrite Forall_forall. intros row I. apply In_nth_error in I as [k Hk]. rewrite RW, nth_error_map in Hk.
    rewrite nth_error_combine, nth_error_zseq in Hk.
    destruct (Nat.ltb_spec k (List.length (cnames t))) as [H|H]; [|discriminate].
    destruct (nth_error (combine _ _) k) as [[cn ct]|]; [|discriminate]. simpl in Hk. injection Hk as <-.
    constructor; [split; [reflexivity|]|]; [|constructor; [split; reflexivity|constructor; [split; reflexivity|constructor]]].
    simpl. unfold in_range. apply andb_true_iff. unfold ColCount in LM. split; apply Z.leb_le; [|lia].
    unfold imin. simpl. lia.
Qed.

Theorem C38_NilTable_rejected : forall t, is_nil t = true -> GetColInfoAsTable t = Err /\ GetColInfoAsSlices t = Err.
Proof. intros t H. unfold GetColInfoAsTable, GetColInfoAsSlices. now rewrite H. Qed.

Theorem C38_GetColInfoAsSlices : forall t, wf_table t -> is_nil t = false ->
  GetColInfoAsSlices t = Ok (cnames t, ctypes t).
Proof.
  intros t W NT. unfold GetColInfoAsSlices. rewrite NT.
  assert (E : mapM (fun ci => let! cn := ColName t ci in let! ct := ColType t cn in Ok (cn, ct)) (zseq (List.length (cnames t)))
            = Ok (combine (cnames t) (ctypes t))).
  { assert (G : forall k, k <= List.length (cnames t) ->
      mapM (fun ci => let! cn := ColName t ci in let! ct := ColType t cn in Ok (cn, ct)) (zseq k) = Ok (firstn k (combine (cnames t) (ctypes t)))).
    { induction k as [|k IH]; intros Hk; [reflexivity|]. rewrite zseq_S.
      assert (MA : forall {A B} (f : A -> res B) l x, mapM f (l ++ [x]) = let! a := mapM f l in let! b := f x in Ok (a ++ [b])).
      { intros A B f l x. induction l as [|y l IHl]; simpl. - destruct (f x); reflexivity.
        - destruct (f y); simpl; auto. rewrite IHl. destruct (mapM f l); simpl; auto. destruct (f x); reflexivity. }
      rewrite MA, IH by lia. simpl.
      rewrite ColName_eq. replace (HasColByColIndex t (Z.of_nat k)) with true by (symmetry; apply HasCol_iff; unfold ColCount; lia).
      simpl. rewrite Nat2Z.id. destruct (nth_error_lt (cnames t) k ltac:(lia)) as [cn Hcn].
      destruct (wf_type_at _ W k ltac:(lia)) as (ct & Hct & _). rewrite (nth_error_nth _ _ "" Hcn).
      rewrite (proj2 (wf_ColType_iff _ W cn ct)) by eauto. simpl. f_equal. symmetry. apply firstn_S_nth.
      now rewrite nth_error_combine, Hcn, Hct. }
    rewrite G by auto. f_equal. apply firstn_all2. rewrite combine_length, (wf_types_len _ W). lia. }
  rewrite E. simpl. rewrite map_fst_combine, map_snd_combine by now rewrite (wf_types_len _ W). reflexivity.
Qed.

Example C38_nonvacuous :
  wf_table sample /\ (ColCount sample <= imax KInt)%Z
  /\ match GetColInfoAsTable sample with Ok ti => GetVal ti "colType" 5 = Ok (VString "*Table") | _ => False end.
Proof. split; [apply wf_sample|]. split; [vm_compute; discriminate|]. vm_compute. reflexivity. Qed.

(** ---------- C12: NewTableReorderCols* ---------- *)

(** The new table has the receiver's name; position i holds column order[i] with its
    type and cells.  The receiver is only read. *)
Theorem C12_NewTableReorderColsByColIndex : forall t order b, wf_table t ->
  (is_nil t = false -> Permutation order (zseq (List.length (cnames t))) ->
     exists t', run (NewTableReorderColsByColIndex t order) b NewNilTable = (t', Ok tt)
       /\ fresh_table (tname t) t' /\ RowCount t' = RowCount t /\ ColCount t' = ColCount t
       /\ (forall i o, nth_error order i = Some o ->
             nth_error (cnames t') i = nth_error (cnames t) (Z.to_nat o)
             /\ nth_error (ctypes t') i = nth_error (ctypes t) (Z.to_nat o)
             /\ forall r, GetValByColIndex t' (Z.of_nat i) r = GetValByColIndex t o r)
       /\ (forall cn r, GetVal t' cn r = GetVal t cn r)
       /\ (forall cn, ColType t' cn = ColType t cn))
  /\ (is_nil t = true \/ ~ Permutation order (zseq (List.length (cnames t))) ->
     exists t', run (NewTableReorderColsByColIndex t order) b NewNilTable = (t', Err)).
Proof.
  intros t order b W. split.
  2:{ intros BAD. destruct (NewTableReorderColsByColIndex_spec t order b W) as [(N & P & _)|[_ (s' & E)]].
      - exfalso. destruct BAD; [congruence|contradiction].
      - exists (s_tab s'). now apply run_eq in E. }
  intros NT PM. destruct (NewTableReorderColsByColIndex_spec t order b W) as [(_ & _ & t' & l & E & FT & CN & CT & CR)|[NO _]].
  2:{ exfalso. apply NO. auto. }
  exists t'. apply run_eq in E. split; auto. split; auto.
  pose proof (ft_wf _ _ FT) as W'.
  assert (LO : List.length order = List.length (cnames t)).
  { apply Permutation_length in PM. now rewrite zseq_length in PM. }
  split. { unfold RowCount. rewrite CR, map_length. reflexivity. }
  split. { unfold ColCount. rewrite CN, permute_length. lia. }
  assert (POS : forall i o, nth_error order i = Some o ->
             nth_error (cnames t') i = nth_error (cnames t) (Z.to_nat o)
             /\ nth_error (ctypes t') i = nth_error (ctypes t) (Z.to_nat o)
             /\ forall r, GetValByColIndex t' (Z.of_nat i) r = GetValByColIndex t o r).
  { intros i o H. pose proof (order_range _ _ PM) as F. eapply Forall_nth_error in F; eauto. cbv beta in F.
    rewrite CN, CT, !nth_error_permute, H. cbn [option_map].
    destruct (nth_error_lt (cnames t) (Z.to_nat o) ltac:(lia)) as [cn Hcn].
    destruct (wf_type_at _ W (Z.to_nat o) ltac:(lia)) as (ct & Hct & _).
    split; [rewrite Hcn; f_equal; now apply nth_error_nth|]. split; [rewrite Hct; f_equal; now apply nth_error_nth|].
    intros r. rewrite !get_at by auto. destruct (Z.leb_spec 0 (Z.of_nat i)); [|lia]. destruct (Z.leb_spec 0 o); [|lia]. cbn [andb].
    destruct (0 <=? r)%Z; [|reflexivity]. rewrite Nat2Z.id. unfold at_cell. rewrite CR, nth_error_map.
    destruct (nth_error (rows t) (Z.to_nat r)) as [row|] eqn:ER; [|reflexivity]. cbn [option_map].
    rewrite nth_error_permute, H. cbn [option_map].
    destruct (nth_error_lt row (Z.to_nat o)) as [v Hv]; [rewrite (wf_row_len _ W _ _ ER); lia|].
    rewrite Hv. now rewrite (nth_error_nth _ _ VNil Hv). }
  split; [exact POS|].
  assert (PN : Permutation (cnames t') (cnames t)) by (rewrite CN; now apply permute_perm).
  assert (COL : forall cn, In cn (cnames t) -> exists i o, nth_error order i = Some o /\ (0 <= o)%Z /\ nth_error (cnames t') i = Some cn /\ nth_error (cnames t) (Z.to_nat o) = Some cn).
  { intros cn I. apply (Permutation_in _ (Permutation_sym PN)) in I. apply In_nth_error in I as [i Hi].
    assert (HL : i < List.length order) by (apply nth_error_some_lt in Hi; rewrite CN, permute_length in Hi; auto).
    destruct (nth_error_lt order i HL) as [o Ho]. destruct (POS i o Ho) as (P1 & _).
    pose proof (order_range _ _ PM) as F. eapply Forall_nth_error in F; eauto. cbv beta in F.
    exists i, o. repeat split; auto; try lia. congruence. }
  split.
  - intros cn r. destruct (in_dec string_dec cn (cnames t)) as [I|I].
    + destruct (COL cn I) as (i & o & Ho & O0 & H1 & H2).
      rewrite (GetVal_col_at t' (Z.of_nat i) cn r W') by (now apply col_at_nat).
      rewrite (GetVal_col_at t o cn r W) by (split; auto). now apply POS.
    + rewrite !GetVal_no_col; auto. intros X. apply I. eapply Permutation_in; eauto.
  - intros cn. destruct (in_dec string_dec cn (cnames t)) as [I|I].
    + destruct (COL cn I) as (i & o & Ho & O0 & H1 & H2). destruct (POS i o Ho) as (_ & P2 & _).
      destruct (wf_type_at _ W (Z.to_nat o)) as (ct & Hct & _); [eapply nth_error_some_lt; eauto|].
      rewrite (proj2 (wf_ColType_iff _ W cn ct)) by eauto.
      apply (wf_ColType_iff _ W'). exists i. split; auto. congruence.
    + rewrite (proj2 (wf_ColType_err _ W cn) I). apply (wf_ColType_err _ W').
      intros X. apply I. eapply Permutation_in; eauto.
Qed.

Theorem C12_NewTableReorderCols : forall t names b, wf_table t ->
  (is_nil t = false -> Permutation names (cnames t) ->
     exists order, Forall2 (fun n o => col_at t o n) names order /\ Permutation order (zseq (List.length (cnames t)))
       /\ run (NewTableReorderCols t names) b NewNilTable = run (NewTableReorderColsByColIndex t order) b NewNilTable
       /\ cnames (fst (run (NewTableReorderCols t names) b NewNilTable)) = names)
  /\ (is_nil t = true \/ ~ Permutation names (cnames t) ->
     exists t', run (NewTableReorderCols t names) b NewNilTable = (t', Err)).
Proof.
  intros t names b W. split.
  2:{ intros BAD. destruct (NewTableReorderCols_spec t names b W) as [(N & P & _)|[_ (s' & E)]].
      - exfalso. destruct BAD; [congruence|contradiction].
      - exists (s_tab s'). now apply run_eq in E. }
  intros NT PM. destruct (NewTableReorderCols_spec t names b W) as [(_ & _ & order & t' & l & FO & E & FT & CN & _)|[NO _]].
  2:{ exfalso. apply NO. auto. }
  exists order. split; [exact FO|].
  assert (L : List.length names = List.length (cnames t)) by (now apply Permutation_length).
  assert (EM : mapM (ColIndex t) names = Ok order).
  { clear -FO W. induction FO as [|n z ns os [Z0 H] _ IH]; [reflexivity|]. simpl.
    replace z with (Z.of_nat (Z.to_nat z)) by lia. rewrite (proj2 (ColIndex_iff t n (Z.to_nat z) W) H). simpl. rewrite IH. simpl. reflexivity. }
  assert (RE : forall s, NewTableReorderCols t names s = NewTableReorderColsByColIndex t order s).
  { intros s. unfold NewTableReorderCols. mstep. rewrite (proj2 (Nat.eqb_eq _ _) L). mstep. rewrite EM. reflexivity. }
  split.
  - destruct (NewTableReorderColsByColIndex_spec t order b W) as [(_ & P & _)|[_ (s' & E')]]; auto.
    rewrite RE in E. congruence.
  - split. { unfold run. now rewrite RE. }
    apply run_eq in E. rewrite E. exact CN.
Qed.

Example C12_New_nonvacuous :
  wf_table sample
  /\ match run (NewTableReorderCols sample ["when";"id";"child";"item";"data";"price";"code"]) 20 NewNilTable with
     | (t', Ok _) => GetVal t' "item" 1 = Ok (VString "hammer") /\ ColIndex t' "item" = Ok 3%Z
     | _ => False end.
Proof. split; [apply wf_sample|]. vm_compute. auto. Qed.

(** Axioms used by any theorem of this file. *)
Definition all_Props_Copy :=
  (@C36_AppendRowsFromTable,
   @C36_AppendRowsFromTable_itself,
   @C36_NilTable_rejected,
   @C36_NewTableFromRows,
   @C37_AppendColsFromTable,
   @C37_NilTable_rejected,
   @C37_itself,
   @C38_GetColInfoAsTable,
   @C38_NilTable_rejected,
   @C38_GetColInfoAsSlices,
   @C12_NewTableReorderColsByColIndex,
   @C12_NewTableReorderCols).
Print Assumptions all_Props_Copy.
