(** Props_Struct.v -- rows and columns: C06, C07, C08, C09, C10, C12, C13, C46. *)
From Coq Require Import ZArith NArith List String Ascii Bool SpecFloat Permutation Lia.
From Verif Require Import Base Model_Names Model_Table Model_Sort Spec.
From Verif Require Import Proofs_Lib Proofs_Table Proofs_Cells Proofs_Struct Proofs_Api Proofs_Api2 Proofs_Pres Samples.
Import ListNotations.
Local Open Scope string_scope.
Local Open Scope list_scope.

(** ---------- C06: AppendRow, AppendRows ---------- *)

Theorem C06_AppendRows : forall t b n, wf_table t -> is_nil t = false -> (0 <= n)%Z ->
  exists t' new, run (AppendRows n) b t = (t', Ok tt)
   /\ same_header t t'
   /\ rows t' = rows t ++ new
   /\ Z.of_nat (List.length new) = n
   /\ Forall (Forall2 (zero_of (fun p => b <= p)) (ctypes t)) new
   /\ NoDup (nested_in new).
Proof.
  intros t b n W N Hn. eexists. exists (zero_rows b (ctypes t) (Z.to_nat n)).
  assert (E : run (AppendRows n) b t = (s_tab (rows_added (Z.to_nat n) (mkS t b [])), Ok tt)).
  { unfold run. rewrite AppendRows_eq by auto. simpl s_tab. rewrite N.
    destruct (Z.ltb_spec n 0); [lia|reflexivity]. }
  assert (NX : next (mkS t b []) = b) by (unfold next; simpl; lia).
  split; [exact E|]. unfold rows_added. rewrite NX. simpl.
  split; [apply same_header_rows|]. split; auto. rewrite zero_rows_length. split; [lia|].
  split; [apply zero_rows_spec; apply (wf_types _ W)|].
  rewrite nested_zero_rows by apply (wf_types _ W). apply seq_NoDup.
Qed.

(** The same, read through the API. *)
Theorem C06_AppendRows_reads : forall t b n t', wf_table t ->
  run (AppendRows n) b t = (t', Ok tt) ->
  same_header t t' /\ RowCount t' = (RowCount t + n)%Z
  /\ (forall c r, (r < RowCount t)%Z -> GetValByColIndex t' c r = GetValByColIndex t c r)
  /\ (forall c r ct, (0 <= c)%Z -> nth_error (ctypes t) (Z.to_nat c) = Some ct -> (RowCount t <= r < RowCount t + n)%Z ->
        exists v, GetValByColIndex t' c r = Ok v /\ zero_of (fun p => b <= p) ct v).
Proof.
  intros t b n t' W R.
  assert (W' : wf_table t').
  { unfold run in R. rewrite AppendRows_eq in R by auto. simpl s_tab in R.
    destruct (is_nil t) eqn:N; [discriminate|]. destruct (Z.ltb_spec n 0); [discriminate|].
    injection R as <-. apply (rows_added_wf (Z.to_nat n) (mkS t b [])); auto. }
  assert (NH : is_nil t = false /\ (0 <= n)%Z).
  { unfold run in R. rewrite AppendRows_eq in R by auto. simpl s_tab in R.
    destruct (is_nil t); [discriminate|]. destruct (Z.ltb_spec n 0); [discriminate|]. auto. }
  destruct NH as [N Hn].
  destruct (C06_AppendRows t b n W N Hn) as (t2 & new & E & SH & RW & LN & ZN & _).
  rewrite R in E. injection E as <-. split; auto. split.
  - unfold RowCount. rewrite RW, app_length. lia.
  - split.
    + intros c r Hr. rewrite !get_at by auto. unfold at_cell. rewrite RW.
      destruct (Z.leb_spec 0 c); simpl; auto. destruct (Z.leb_spec 0 r); simpl; auto.
      rewrite nth_error_app1 by (unfold RowCount in Hr; lia). reflexivity.
    + intros c r ct Hc T Hr. unfold RowCount in Hr.
      destruct (nth_error_lt new (Z.to_nat r - List.length (rows t))) as [row ER]; [lia|].
      pose proof (Forall_nth_error _ _ _ _ ZN ER) as F.
      destruct (Forall2_nth _ _ _ _ _ F T) as (v & V & Z). exists v. split; auto.
      rewrite get_at by auto. unfold at_cell. rewrite RW.
      rewrite nth_error_app2 by lia. rewrite ER, V.
      destruct (Z.leb_spec 0 c), (Z.leb_spec 0 r); simpl; auto; lia.
Qed.

Theorem C06_AppendRows_rejected : forall t b n, wf_table t -> is_nil t = true \/ (n < 0)%Z ->
  run (AppendRows n) b t = (t, Err).
Proof.
  intros t b n W H. unfold run. rewrite AppendRows_eq by auto. simpl s_tab.
  destruct (is_nil t); auto. destruct (Z.ltb_spec n 0); auto. destruct H; [discriminate|lia].
Qed.

Theorem C06_AppendRow_is_AppendRows_1 : forall t b, wf_table t -> run AppendRow b t = run (AppendRows 1) b t.
Proof.
  intros t b W. unfold run. rewrite AppendRows_eq, AppendRow_eq by auto. simpl s_tab.
  destruct (is_nil t); auto.
Qed.

Example C06_nonvacuous : wf_table sample /\ is_nil sample = false
  /\ nested_in (skipn 3 (rows (fst (run (AppendRows 2) 10 sample)))) = [10; 11]
  /\ RowCount (fst (run (AppendRows 2) 10 sample)) = 5%Z.
Proof. split; [apply wf_sample|]. vm_compute. auto. Qed.

(** ---------- C07: AppendCol ---------- *)

Theorem C07_AppendCol : forall t b cn ct, wf_table t ->
  is_nil t = false -> valid_name cn -> ~ In cn (cnames t) -> In ct all_types ->
  exists t', run (AppendCol cn ct) b t = (t', Ok tt)
   /\ same_but_cols t t'
   /\ cnames t' = cnames t ++ [cn] /\ ctypes t' = ctypes t ++ [ct]
   /\ (forall c r, c <> ColCount t -> GetValByColIndex t' c r = GetValByColIndex t c r)
   /\ (forall r, (0 <= r < RowCount t)%Z ->
         exists v, GetValByColIndex t' (ColCount t) r = Ok v /\ zero_of (fun p => b <= p) ct v).
Proof.
  intros t b cn ct W N V NI Hct.
  assert (CA : can_append_col t cn ct = true).
  { unfold can_append_col. rewrite N, (proj2 (IsValidColName_spec cn) V), (proj2 (IsValidColType_spec ct) Hct).
    simpl. now rewrite (proj2 (wf_mget_none t W cn) NI). }
  pose proof (AppendCol_eq cn ct (mkS t b []) W) as E. simpl s_tab in E. rewrite CA in E. apply run_eq in E.
  pose proof (col_added_wf cn ct (mkS t b []) W CA) as W'.
  eexists. split; [exact E|]. set (t' := s_tab (col_added cn ct (mkS t b []))) in *.
  assert (NX : next (mkS t b []) = b) by (unfold next; simpl; lia).
  assert (RW : rows t' = mapi (fun r row => row ++ [zcol ct b r]) 0 (rows t)).
  { unfold t', col_added. rewrite NX. reflexivity. }
  split; [constructor; try reflexivity; unfold RowCount; rewrite RW, mapi_length; reflexivity|].
  split; [reflexivity|]. split; [reflexivity|]. split.
  - intros c r Hc. rewrite !get_at by auto. unfold at_cell. rewrite RW, nth_error_mapi.
    destruct (Z.leb_spec 0 c); simpl; auto. destruct (Z.leb_spec 0 r); simpl; auto.
    destruct (nth_error (rows t) (Z.to_nat r)) as [row|] eqn:ER; simpl; auto.
    pose proof (wf_row_len t W _ _ ER) as L. unfold ColCount in Hc.
    destruct (Nat.ltb_spec (Z.to_nat c) (List.length row)).
    + rewrite nth_error_app1 by auto. reflexivity.
    + rewrite nth_error_app2 by auto.
      destruct (Z.to_nat c - List.length row) as [|k] eqn:K; [lia|]. simpl.
      replace (nth_error (@nil value) k) with (@None value) by (destruct k; reflexivity).
      rewrite (proj2 (nth_error_None row (Z.to_nat c))) by lia. reflexivity.
  - intros r Hr. unfold RowCount in Hr.
    destruct (nth_error_lt (rows t) (Z.to_nat r)) as [row ER]; [lia|].
    pose proof (wf_row_len t W _ _ ER) as L.
    exists (zcol ct b (Z.to_nat r)). split.
    + rewrite get_at by auto. unfold at_cell. rewrite RW, nth_error_mapi, ER. simpl option_map. cbv iota.
      unfold ColCount. rewrite Nat2Z.id, <- L, nth_error_app2, Nat.sub_diag by lia. simpl nth_error.
      destruct (Z.leb_spec 0 (Z.of_nat (List.length row))), (Z.leb_spec 0 r); simpl; auto; lia.
    + unfold zcol. destruct (is_tab ct) eqn:IT.
      * apply is_tab_eq in IT. subst. simpl. split; auto; lia.
      * now apply zplain_ok.
Qed.

Theorem C07_AppendCol_rejected : forall t b cn ct, wf_table t ->
  ~ (is_nil t = false /\ valid_name cn /\ ~ In cn (cnames t) /\ In ct all_types) ->
  run (AppendCol cn ct) b t = (t, Err).
Proof.
  intros t b cn ct W N.
  pose proof (AppendCol_eq cn ct (mkS t b []) W) as E. simpl s_tab in E.
  destruct (can_append_col t cn ct) eqn:CA; [|now apply run_eq in E].
  exfalso. apply N. unfold can_append_col in CA. rewrite !andb_true_iff in CA.
  destruct CA as [[[A B] C] D]. split; [now apply negb_true_iff|]. split; [now apply IsValidColName_spec|].
  split; [|now apply IsValidColType_spec]. apply wf_mget_none; auto. destruct (mget (cmap t) cn); auto. discriminate.
Qed.

Example C07_nonvacuous : wf_table sample /\ valid_name "extra" /\ ~ In "extra" (cnames sample)
  /\ run (AppendCol "id" "bool") 10 sample = (sample, Err)
  /\ run (AppendCol "int" "bool") 10 sample = (sample, Err)
  /\ run (AppendCol "x" "complex") 10 sample = (sample, Err)
  /\ run (AppendCol "x" "bool") 10 NewNilTable = (NewNilTable, Err)
  /\ NewTableFromMetadata "T" ["a"; "b"; "a"] ["int"; "bool"; "int"] = Err
  /\ NewTableFromMetadata "T" ["a"; "b"; "c"] ["int"; "bool"] = Err
  /\ (exists t, NewTableFromMetadata "T" ["a"; "b"; "c"] ["int"; "bool"; "*Table"] = Ok t).
Proof.
  split; [apply wf_sample|]. split; [now apply IsValidColName_spec|].
  split; [apply (wf_mget_none sample wf_sample); reflexivity|]. vm_compute. do 6 (split; [reflexivity|]). eauto.
Qed.

(** NewTableFromMetadata(name, colNames, colTypes): the column list is exactly the one asked for. *)
Lemma appendCols_eq ps : forall s, wf_table (s_tab s) -> is_nil (s_tab s) = false -> rows (s_tab s) = [] ->
  (exists s', mfor ps (fun p => AppendCol (fst p) (snd p)) s = (s', Ok tt)
     /\ wf_table (s_tab s') /\ is_nil (s_tab s') = false /\ rows (s_tab s') = [] /\ tname (s_tab s') = tname (s_tab s)
     /\ skeys (s_tab s') = skeys (s_tab s) /\ struct_shape (s_tab s') = struct_shape (s_tab s) /\ parent (s_tab s') = parent (s_tab s)
     /\ s_base s' = s_base s /\ s_news s' = s_news s
     /\ cnames (s_tab s') = cnames (s_tab s) ++ map fst ps /\ ctypes (s_tab s') = ctypes (s_tab s) ++ map snd ps
     /\ Forall (fun p => valid_name (fst p) /\ In (snd p) all_types) ps)
  \/ (exists s', mfor ps (fun p => AppendCol (fst p) (snd p)) s = (s', Err)
     /\ ~ (NoDup (cnames (s_tab s) ++ map fst ps) /\ Forall (fun p => valid_name (fst p) /\ In (snd p) all_types) ps)).
Proof.
  induction ps as [|[cn ct] ps IH]; intros s W N R.
  - left. exists s. simpl. rewrite !app_nil_r. repeat (split; [auto; fail|]). constructor.
  - cbn [mfor]. pose proof (AppendCol_eq cn ct s W) as E. cbn [fst snd map].
    destruct (can_append_col (s_tab s) cn ct) eqn:CA.
    + erewrite bind_eq_ok by exact E. pose proof (col_added_wf _ _ _ W CA) as W1.
      assert (V : valid_name cn /\ In ct all_types).
      { unfold can_append_col in CA. rewrite !andb_true_iff in CA. destruct CA as [[[A B] C] D].
        split; [now apply IsValidColName_spec|now apply IsValidColType_spec]. }
      destruct (IH (col_added cn ct s)) as [(s' & E' & H)|(s' & E' & H)]; auto; [simpl; now rewrite R| |].
      * left. exists s'. split; auto. simpl in H. rewrite <- !app_assoc in H. simpl in H.
        rewrite R in H. simpl in H. replace (if is_tab ct then 0 else 0) with 0 in H by (destruct (is_tab ct); auto).
        simpl in H. rewrite app_nil_r in H.
        destruct H as (H1 & H2 & H3 & H4 & H5 & H6 & H7 & H8 & H9 & H10 & H11 & H12).
        repeat (split; [auto; fail|]). constructor; auto.
      * right. exists s'. split; auto. intros [ND F]. apply H. simpl. rewrite <- app_assoc. simpl. split; auto.
        now inversion F.
    + right. exists s. split; [unfold bind; rewrite E; reflexivity|]. intros [ND F]. inversion F as [|? ? [V T] F1]; subst. simpl in V, T.
      enough (can_append_col (s_tab s) cn ct = true) by congruence.
      unfold can_append_col. rewrite N. simpl.
      replace (IsValidColName cn) with true by (symmetry; now apply IsValidColName_spec).
      replace (IsValidColType ct) with true by (symmetry; now apply IsValidColType_spec).
      replace (mget (cmap (s_tab s)) cn) with (@None nat); auto. symmetry. apply wf_mget_none; auto.
      apply NoDup_remove_2 in ND. intros I. apply ND, in_or_app. now left.
Qed.

Definition metadata_ok (n : string) (cns cts : list string) : Prop :=
  valid_name n /\ List.length cns = List.length cts /\ Forall valid_name cns /\ NoDup cns /\ Forall (fun ct => In ct all_types) cts.

Theorem C07_NewTableFromMetadata : forall n cns cts, 
  (metadata_ok n cns cts -> exists t, NewTableFromMetadata n cns cts = Ok t /\ wf_table t /\ tname t = n /\ is_nil t = false
     /\ cnames t = cns /\ ctypes t = cts /\ rows t = [] /\ skeys t = [] /\ struct_shape t = false /\ parent t = None)
  /\ (~ metadata_ok n cns cts -> NewTableFromMetadata n cns cts = Err).
Proof.
  intros n cns cts. unfold NewTableFromMetadata.
  destruct (Nat.eqb_spec (List.length cns) (List.length cts)) as [L|L]; cbn [negb]; [|split; [intros (_ & C & _); contradiction|auto]].
  assert (V0 : run (SetName n) 0 NewNilTable = if IsValidTableName n then (mkT n [] [] [] [] [] false false None, Ok tt) else (NewNilTable, Err)).
  { unfold run, SetName, bind, check, modify, ret, fail. simpl. destruct (IsValidTableName n); reflexivity. }
  unfold NewTable. rewrite V0. destruct (IsValidTableName n) eqn:V; cbn [rbind].
  2:{ split; auto. intros (C & _). apply IsValidTableName_spec in C. congruence. }
  set (t0 := mkT n [] [] [] [] [] false false None) in *. unfold run.
  assert (W : wf_table t0). { change t0 with (fst (t0, @Ok unit tt)). rewrite <- V0. apply run_pres; [apply pres_SetName|apply wf_NewNilTable|constructor]. }
  apply IsValidTableName_spec in V.
  unfold appendCols, check, bind, ret. rewrite L, Nat.eqb_refl.
  assert (MF : map fst (combine cns cts) = cns). { clear -L. revert cts L. induction cns; intros [|ct cts] L; try discriminate; simpl; auto. f_equal. auto. }
  assert (MS : map snd (combine cns cts) = cts). { clear -L. revert cts L. induction cns; intros [|ct cts] L; try discriminate; simpl; auto. f_equal. auto. }
  assert (FA : Forall (fun p => valid_name (fst p) /\ In (snd p) all_types) (combine cns cts) <-> Forall valid_name cns /\ Forall (fun ct => In ct all_types) cts).
  { rewrite !Forall_forall. split.
    - intros F. split; [rewrite <- MF|rewrite <- MS]; intros x [y [<- I]]%in_map_iff; now apply F.
    - intros [A B] p I. split; [apply A; rewrite <- MF|apply B; rewrite <- MS]; now apply in_map. }
  destruct (appendCols_eq (combine cns cts) (mkS t0 0 []) W eq_refl eq_refl) as [(s' & E & H)|(s' & E & H)]; rewrite E; simpl in H; rewrite MF in H.
  - rewrite MS in H. destruct H as (H1 & H2 & H3 & H4 & H5 & H6 & H7 & _ & _ & H8 & H9 & H10). split.
    + intros _. exists (s_tab s'). repeat (split; [auto; fail|]). auto.
    + intros C. exfalso. apply C. apply FA in H10 as [A B]. repeat (split; [auto; fail|]). split; auto. rewrite <- H8. apply (wf_nodup _ H1).
  - split; auto. intros (_ & _ & A & B & C). exfalso. apply H. split; auto. now apply FA.
Qed.

(** ---------- C08: DeleteRows, DeleteRow, DeleteRowsAll ---------- *)

Theorem C08_DeleteRows : forall t b f l, wf_table t -> (0 <= f <= l)%Z -> (l < RowCount t)%Z ->
  exists t', run (DeleteRows f l) b t = (t', Ok tt)
   /\ same_header t t'
   /\ RowCount t' = (RowCount t - (l - f + 1))%Z
   /\ (forall c r, (r < f)%Z -> GetValByColIndex t' c r = GetValByColIndex t c r)
   /\ (forall c r, (f <= r)%Z -> GetValByColIndex t' c r = GetValByColIndex t c (r + (l - f + 1))).
Proof.
  intros t b f l W Hf Hl.
  pose proof (DeleteRows_eq f l (mkS t b [])) as E. simpl s_tab in E.
  replace ((0 <=? f) && (f <=? l) && (l <? RowCount t))%Z with true in E
    by (symmetry; rewrite !andb_true_iff; rewrite Z.ltb_lt, !Z.leb_le; lia).
  apply run_eq in E. eexists. split; [exact E|].
  pose proof (rows_deleted_wf (Z.to_nat f) (Z.to_nat l) (mkS t b []) W) as W'.
  set (t' := s_tab (rows_deleted (Z.to_nat f) (Z.to_nat l) (mkS t b []))) in *.
  assert (RW : rows t' = firstn (Z.to_nat f) (rows t) ++ skipn (S (Z.to_nat l)) (rows t)) by reflexivity.
  unfold RowCount in Hl.
  assert (LF : List.length (firstn (Z.to_nat f) (rows t)) = Z.to_nat f) by (rewrite firstn_length; lia).
  split; [apply same_header_rows|]. split.
  - unfold RowCount. rewrite RW, app_length, LF, skipn_length. lia.
  - split; intros c r Hr; rewrite !get_at by auto; unfold at_cell; rewrite RW.
    + destruct (Z.leb_spec 0 c); simpl; auto. destruct (Z.leb_spec 0 r); simpl; auto.
      rewrite nth_error_app1 by lia. rewrite nth_error_firstn. destruct (Nat.ltb_spec (Z.to_nat r) (Z.to_nat f)); [auto|lia].
    + rewrite nth_error_app2 by lia. rewrite LF, nth_error_skipn.
      replace (S (Z.to_nat l) + (Z.to_nat r - Z.to_nat f)) with (Z.to_nat (r + (l - f + 1))) by lia.
      destruct (Z.leb_spec 0 r), (Z.leb_spec 0 (r + (l - f + 1))); auto; lia.
Qed.

Theorem C08_DeleteRows_rejected : forall t b f l, ~ ((0 <= f <= l)%Z /\ (l < RowCount t)%Z) ->
  run (DeleteRows f l) b t = (t, Err).
Proof.
  intros t b f l N. pose proof (DeleteRows_eq f l (mkS t b [])) as E. simpl s_tab in E.
  replace ((0 <=? f) && (f <=? l) && (l <? RowCount t))%Z with false in E.
  - now apply run_eq in E.
  - symmetry. apply not_true_is_false. rewrite !andb_true_iff, Z.ltb_lt, !Z.leb_le. tauto.
Qed.

Theorem C08_DeleteRow : forall t b i, run (DeleteRow i) b t = run (DeleteRows i i) b t.
Proof.
  intros t b i. unfold run. rewrite DeleteRow_eq, DeleteRows_eq. simpl s_tab.
  replace ((0 <=? i) && (i <=? i))%Z with (0 <=? i)%Z by (rewrite Z.leb_refl; now destruct (0 <=? i)%Z).
  reflexivity.
Qed.

Theorem C08_DeleteRowsAll : forall t b, exists t', run DeleteRowsAll b t = (t', Ok tt)
  /\ same_header t t' /\ RowCount t' = 0%Z.
Proof.
  intros t b. exists (with_rows [] t). split; [|split; [apply same_header_rows|reflexivity]].
  unfold run. now rewrite DeleteRowsAll_eq.
Qed.

Example C08_nonvacuous : wf_table sample /\ RowCount sample = 3%Z
  /\ GetVal (fst (run (DeleteRows 0 1) 9 sample)) "id" 0 = GetVal sample "id" 2
  /\ snd (run (DeleteRows 2 1) 9 sample) = Err /\ snd (run (DeleteRows 1 3) 9 sample) = Err
  /\ snd (run (DeleteRow (-1)) 9 sample) = Err.
Proof. split; [apply wf_sample|]. vm_compute. auto. Qed.

(** ---------- C09: DeleteCol ---------- *)

Theorem C09_DeleteColByColIndex : forall t b c cn, wf_table t -> col_at t c cn ->
  exists t', run (DeleteColByColIndex c) b t = (t', Ok tt)
   /\ same_but_cols t t'
   /\ ColCount t' = (ColCount t - 1)%Z
   /\ ~ In cn (cnames t')
   /\ (forall c', (0 <= c' < c)%Z -> ColName t' c' = ColName t c' /\ ColTypeByColIndex t' c' = ColTypeByColIndex t c'
          /\ forall r, GetValByColIndex t' c' r = GetValByColIndex t c' r)
   /\ (forall c', (c <= c' < ColCount t - 1)%Z -> ColName t' c' = ColName t (c' + 1)
          /\ ColTypeByColIndex t' c' = ColTypeByColIndex t (c' + 1)
          /\ forall r, GetValByColIndex t' c' r = GetValByColIndex t (c' + 1) r)
   /\ (forall cn' r, cn' <> cn -> GetVal t' cn' r = GetVal t cn' r /\ ColType t' cn' = ColType t cn').
Proof.
  intros t b c cn W C. pose proof (col_at_range _ _ _ C) as Hc.
  pose proof (DeleteColByColIndex_eq c (mkS t b [])) as E. simpl s_tab in E.
  rewrite (proj2 (HasCol_iff t c) Hc) in E. apply run_eq in E. eexists. split; [exact E|].
  assert (Hlt : Z.to_nat c < List.length (cnames t)) by (unfold ColCount in Hc; lia).
  pose proof (col_deleted_wf (Z.to_nat c) (mkS t b []) W Hlt) as W'.
  set (t' := s_tab (col_deleted (Z.to_nat c) (mkS t b []))) in *.
  assert (CN : cnames t' = remove_at (Z.to_nat c) (cnames t)) by reflexivity.
  assert (CT : ctypes t' = remove_at (Z.to_nat c) (ctypes t)) by reflexivity.
  assert (RW : rows t' = map (remove_at (Z.to_nat c)) (rows t)) by reflexivity.
  assert (CC : ColCount t' = (ColCount t - 1)%Z).
  { unfold ColCount. rewrite CN, remove_at_length by auto. lia. }
  assert (NI : ~ In cn (cnames t')).
  { rewrite CN. apply not_In_remove_at; [apply (wf_nodup _ W)|apply C]. }
  assert (GC : forall c' c'', (0 <= c')%Z -> c'' = (if (c' <? c)%Z then c' else c' + 1)%Z -> forall r,
            GetValByColIndex t' c' r = GetValByColIndex t c'' r).
  { intros c' c'' H0 Hcc r. rewrite !get_at by auto. unfold at_cell. rewrite RW, nth_error_map.
    destruct (Z.leb_spec 0 c'); [|lia]. destruct (Z.leb_spec 0 c''); [|destruct (c' <? c)%Z; lia]. simpl.
    destruct (nth_error (rows t) (Z.to_nat r)) as [row|] eqn:ER; simpl; auto.
    rewrite nth_error_remove_at.
    destruct (Z.ltb_spec c' c), (Nat.ltb_spec (Z.to_nat c') (Z.to_nat c)); try lia; subst c''; auto.
    replace (Z.to_nat (c' + 1)) with (S (Z.to_nat c')) by lia. auto. }
  assert (NC : forall c' c'', (0 <= c' < ColCount t')%Z -> c'' = (if (c' <? c)%Z then c' else c' + 1)%Z ->
            ColName t' c' = ColName t c'' /\ ColTypeByColIndex t' c' = ColTypeByColIndex t c''
            /\ nth_error (cnames t') (Z.to_nat c') = nth_error (cnames t) (Z.to_nat c'')
            /\ nth_error (ctypes t') (Z.to_nat c') = nth_error (ctypes t) (Z.to_nat c'')).
  { intros c' c'' H0 Hcc.
    assert (H0' : (0 <= c'' < ColCount t)%Z) by (rewrite CC in H0; destruct (Z.ltb_spec c' c); lia).
    assert (EN : nth_error (cnames t') (Z.to_nat c') = nth_error (cnames t) (Z.to_nat c'')).
    { rewrite CN, nth_error_remove_at.
      destruct (Z.ltb_spec c' c), (Nat.ltb_spec (Z.to_nat c') (Z.to_nat c)); try lia; subst c''; auto.
      replace (Z.to_nat (c' + 1)) with (S (Z.to_nat c')) by lia. auto. }
    assert (ET : nth_error (ctypes t') (Z.to_nat c') = nth_error (ctypes t) (Z.to_nat c'')).
    { rewrite CT, nth_error_remove_at.
      destruct (Z.ltb_spec c' c), (Nat.ltb_spec (Z.to_nat c') (Z.to_nat c)); try lia; subst c''; auto.
      replace (Z.to_nat (c' + 1)) with (S (Z.to_nat c')) by lia. auto. }
    repeat split; auto.
    - rewrite !ColName_eq, (proj2 (HasCol_iff t' c') H0), (proj2 (HasCol_iff t c'') H0'). f_equal.
      destruct (nth_error (cnames t) (Z.to_nat c'')) eqn:X.
      + rewrite (nth_error_nth _ _ _ X). apply nth_error_nth. congruence.
      + apply nth_error_None in X. unfold ColCount in H0'. lia.
    - rewrite !ColTypeByColIndex_eq, (proj2 (HasCol_iff t' c') H0), (proj2 (HasCol_iff t c'') H0') by auto.
      now rewrite ET. }
  split; [constructor; try reflexivity; unfold RowCount; rewrite RW, map_length; reflexivity|].
  split; auto. split; auto. split; [|split].
  - intros c' H. assert (X : c' = (if (c' <? c)%Z then c' else c' + 1)%Z) by (destruct (Z.ltb_spec c' c); lia).
    destruct (NC c' c') as (A & B & _); [lia|exact X|]. repeat split; auto. intros r. apply GC; auto; lia.
  - intros c' H. assert (X : (c' + 1)%Z = (if (c' <? c)%Z then c' else c' + 1)%Z) by (destruct (Z.ltb_spec c' c); lia).
    destruct (NC c' (c' + 1)%Z) as (A & B & _); [lia|exact X|]. repeat split; auto. intros r. apply GC; auto; lia.
  - intros cn' r Hne.
    destruct (in_dec string_dec cn' (cnames t')) as [I|I].
    + apply col_at_In in I. destruct I as [c' C'].
      set (c'' := (if (c' <? c)%Z then c' else c' + 1)%Z).
      destruct (NC c' c'') as (A & B & EN & ET); [now apply col_at_range in C'|reflexivity|].
      assert (C'' : col_at t c'' cn').
      { split; [unfold c''; destruct C'; destruct (c' <? c)%Z; lia|]. rewrite <- EN. apply C'. }
      rewrite (GetVal_col_at t' c'), (GetVal_col_at t c'') by auto. split; [apply GC; auto; apply C'|].
      destruct (wf_type_at _ W (Z.to_nat c'')) as (ct & T & Hct).
      { apply col_at_range in C''. unfold ColCount in C''. lia. }
      transitivity (@Ok string ct); [|symmetry]; apply wf_ColType_iff; auto; eexists; split; try apply C'; try apply C''; congruence.
    + assert (I' : ~ In cn' (cnames t)).
      { intros H. apply I. rewrite CN. apply In_remove_at_ne; auto.
        intros K. destruct C as [_ C]. congruence. }
      rewrite !GetVal_no_col by auto. split; auto. rewrite (proj2 (wf_ColType_err t' W' cn') I). symmetry. now apply wf_ColType_err.
Qed.

Theorem C09_DeleteCol : forall t b c cn, wf_table t -> col_at t c cn ->
  run (DeleteCol cn) b t = run (DeleteColByColIndex c) b t.
Proof.
  intros t b c cn W C. unfold run, DeleteCol. rewrite bind_reads. simpl s_tab.
  now rewrite (proj1 (ColIndex_col_at t c cn W) C).
Qed.

Theorem C09_rejected : forall t b c cn, wf_table t ->
  (~ (0 <= c < ColCount t)%Z -> run (DeleteColByColIndex c) b t = (t, Err))
  /\ (~ In cn (cnames t) -> run (DeleteCol cn) b t = (t, Err)).
Proof.
  intros t b c cn W. split; intros N.
  - unfold run. rewrite DeleteColByColIndex_eq. simpl s_tab.
    destruct (HasColByColIndex t c) eqn:E; auto. apply HasCol_iff in E. contradiction.
  - unfold run, DeleteCol. rewrite bind_reads. simpl s_tab.
    destruct (ColIndex_cases t cn W) as [(i & H & _)|[_ H]]; [apply nth_error_In in H; contradiction|]. now rewrite H.
Qed.

Example C09_nonvacuous : wf_table sample /\ col_at sample 3 "code"
  /\ GetVal (fst (run (DeleteCol "id") 9 sample)) "code" 2 = Ok (VInt KUint8 255)
  /\ snd (run (DeleteCol "nope") 9 sample) = Err.
Proof. split; [apply wf_sample|]. split; [split; [discriminate|reflexivity]|]. vm_compute. auto. Qed.

(** ---------- C10: RenameCol ---------- *)

Theorem C10_RenameCol : forall t b old new c, wf_table t ->
  col_at t c old -> ~ In new (cnames t) -> valid_name new ->
  exists t', run (RenameCol old new) b t = (t', Ok tt)
   /\ same_but_cols t t'
   /\ col_at t' c new /\ ~ In old (cnames t')
   /\ ColCount t' = ColCount t /\ ctypes t' = ctypes t
   /\ (forall c' n, c' <> c -> col_at t c' n <-> col_at t' c' n)
   /\ (forall c' r, GetValByColIndex t' c' r = GetValByColIndex t c' r)
   /\ (forall r, GetVal t' new r = GetVal t old r)
   /\ (forall n r, n <> old -> n <> new -> GetVal t' n r = GetVal t n r).
Proof.
  intros t b old new c W C NI V.
  destruct (RenameCol_eq old new (mkS t b []) W) as [(i & H1 & H2 & H3 & E)|[N _]].
  2:{ exfalso. apply N. split; [apply col_at_In; eauto|auto]. }
  simpl in H1, H2. assert (c = Z.of_nat i) by (eapply col_at_inj; eauto; now apply col_at_nat). subst c.
  apply run_eq in E. eexists. split; [exact E|].
  pose proof (col_renamed_wf i old new (mkS t b []) W H1 H2 V) as W'.
  set (t' := s_tab (col_renamed i old new (mkS t b []))) in *.
  assert (CN : cnames t' = upd (cnames t) i new) by reflexivity.
  assert (CA : col_at t' (Z.of_nat i) new).
  { apply col_at_nat. rewrite CN. apply nth_error_upd_eq. eapply nth_error_some_lt; eauto. }
  assert (NO : ~ In old (cnames t')).
  { rewrite CN. intros H. apply In_nth_error in H. destruct H as [j H]. rewrite nth_error_upd in H.
    destruct (Nat.eqb_spec i j).
    - destruct (Nat.ltb i (List.length (cnames t))); [|discriminate]. injection H as ->.
      apply NI. eapply nth_error_In; eauto.
    - apply n. eapply (NoDup_nth _ _ _ _ (wf_nodup _ W)); eauto. }
  assert (OT : forall c' n, c' <> Z.of_nat i -> col_at t c' n <-> col_at t' c' n).
  { intros c' n Hne. unfold col_at. rewrite CN, nth_error_upd. destruct (Nat.eqb_spec i (Z.to_nat c')); [|tauto].
    split; intros [? ?]; lia. }
  assert (GV : forall c' r, GetValByColIndex t' c' r = GetValByColIndex t c' r) by (intros; rewrite !get_at by auto; reflexivity).
  repeat (split; [first [assumption|constructor; reflexivity|unfold ColCount; rewrite CN, upd_length; reflexivity|reflexivity]|]).
  split.
  - intros r. rewrite (GetVal_col_at t' (Z.of_nat i)), (GetVal_col_at t (Z.of_nat i)) by auto. apply GV.
  - intros n r N1 N2. destruct (in_dec string_dec n (cnames t)) as [I|I].
    + apply col_at_In in I. destruct I as [c' C']. assert (c' <> Z.of_nat i).
      { intros ->. apply N1. destruct C as [_ C], C' as [_ C']. congruence. }
      rewrite (GetVal_col_at t' c'), (GetVal_col_at t c') by (auto; now apply OT). apply GV.
    + rewrite !GetVal_no_col; auto. intros H. apply col_at_In in H. destruct H as [c' C'].
      destruct (Z.eq_dec c' (Z.of_nat i)) as [->|Hne].
      * apply N2. destruct CA as [_ CA], C' as [_ C']. congruence.
      * apply I. apply col_at_In. exists c'. now apply OT.
Qed.

Theorem C10_rejected : forall t b old new, wf_table t ->
  ~ (In old (cnames t) /\ ~ In new (cnames t) /\ valid_name new) ->
  run (RenameCol old new) b t = (t, Err).
Proof.
  intros t b old new W N.
  destruct (RenameCol_eq old new (mkS t b []) W) as [(i & H1 & H2 & H3 & E)|[_ E]]; [|now apply run_eq in E].
  exfalso. apply N. split; [eapply nth_error_In; eauto|auto].
Qed.

Example C10_nonvacuous : wf_table sample /\ col_at sample 0 "id"
  /\ GetVal (fst (run (RenameCol "id" "key") 9 sample)) "key" 1 = Ok (VInt KInt (-3))
  /\ snd (run (RenameCol "id" "item") 9 sample) = Err /\ snd (run (RenameCol "id" "9") 9 sample) = Err.
Proof. split; [apply wf_sample|]. split; [split; [discriminate|reflexivity]|]. vm_compute. auto. Qed.

(** ---------- C12: ReorderCols ---------- *)

Theorem C12_ReorderColsByColIndex : forall t b order, wf_table t ->
  Permutation order (zseq (List.length (cnames t))) ->
  exists t', run (ReorderColsByColIndex order) b t = (t', Ok tt)
   /\ same_but_cols t t' /\ ColCount t' = ColCount t
   /\ (forall i o, nth_error order i = Some o ->
         ColName t' (Z.of_nat i) = ColName t o /\ ColTypeByColIndex t' (Z.of_nat i) = ColTypeByColIndex t o
         /\ forall r, GetValByColIndex t' (Z.of_nat i) r = GetValByColIndex t o r)
   /\ (forall cn r, GetVal t' cn r = GetVal t cn r /\ ColType t' cn = ColType t cn).
Proof.
  intros t b order W P.
  destruct (ReorderColsByColIndex_eq order (mkS t b [])) as [[_ E]|[N _]]; [|contradiction].
  apply run_eq in E. eexists. split; [exact E|].
  pose proof (reordered_wf order t W P) as W'.
  change (s_tab (on_tab (reordered order) (mkS t b []))) with (reordered order t).
  set (t' := reordered order t) in *.
  pose proof (order_range _ _ P) as OR.
  assert (LO : List.length order = List.length (cnames t)) by (rewrite (Permutation_length P); apply zseq_length).
  assert (CC : ColCount t' = ColCount t) by (unfold ColCount, t', reordered; simpl; rewrite permute_length; lia).
  assert (NM : forall A (d : A) l i o, nth_error order i = Some o -> nth_error (permute order d l) i = Some (nth (Z.to_nat o) l d)).
  { intros A d l i o H. unfold permute. now rewrite nth_error_map, H. }
  assert (NTH : forall i o, nth_error order i = Some o -> (0 <= o < ColCount t)%Z
       /\ nth_error (cnames t') i = nth_error (cnames t) (Z.to_nat o)
       /\ nth_error (ctypes t') i = nth_error (ctypes t) (Z.to_nat o)
       /\ forall r, GetValByColIndex t' (Z.of_nat i) r = GetValByColIndex t o r).
  { intros i o H. pose proof (Forall_nth_error _ _ _ _ OR H) as R. simpl in R.
    split; [unfold ColCount; lia|]. unfold t', reordered; simpl.
    rewrite !(NM _ _ _ _ _ H). split; [symmetry; apply nth_error_nth'; lia|].
    split; [symmetry; apply nth_error_nth'; rewrite (wf_types_len _ W); lia|].
    intros r. rewrite !get_at by auto. unfold at_cell. simpl. rewrite nth_error_map, Nat2Z.id.
    destruct (Z.leb_spec 0 (Z.of_nat i)); [|lia]. destruct (Z.leb_spec 0 o); [|lia]. simpl.
    destruct (Z.leb_spec 0 r); auto.
    destruct (nth_error (rows t) (Z.to_nat r)) as [row|] eqn:ER; simpl; auto.
    rewrite (NM _ _ _ _ _ H). pose proof (wf_row_len t W _ _ ER) as L.
    rewrite (nth_error_nth' row VNil) by lia. auto. }
  split; [constructor; try reflexivity; unfold RowCount, t', reordered; simpl; now rewrite map_length|].
  split; auto. split.
  - intros i o H. destruct (NTH i o H) as (R & N1 & T1 & G).
    assert (Hi : (0 <= Z.of_nat i < ColCount t')%Z).
    { rewrite CC. unfold ColCount. apply nth_error_some_lt in H. lia. }
    split; [|split; auto].
    + rewrite !ColName_eq, (proj2 (HasCol_iff t' _) Hi), (proj2 (HasCol_iff t o) R), Nat2Z.id. f_equal.
      destruct (nth_error (cnames t) (Z.to_nat o)) eqn:X.
      * rewrite (nth_error_nth _ _ _ X). apply nth_error_nth. congruence.
      * apply nth_error_None in X. unfold ColCount in R. lia.
    + rewrite !ColTypeByColIndex_eq, (proj2 (HasCol_iff t' _) Hi), (proj2 (HasCol_iff t o) R), Nat2Z.id by auto. now rewrite T1.
  - intros cn r.
    assert (PN : Permutation (cnames t') (cnames t)) by (apply permute_perm; exact P).
    destruct (in_dec string_dec cn (cnames t')) as [I|I].
    + apply In_nth_error in I. destruct I as [i I].
      destruct (nth_error_lt order i) as [o HO].
      { apply nth_error_some_lt in I. unfold t', reordered in I; simpl in I. rewrite permute_length in I. auto. }
      destruct (NTH i o HO) as (R & N1 & T1 & G).
      assert (C' : col_at t o cn) by (split; [lia|congruence]).
      rewrite (GetVal_col_at t' (Z.of_nat i)), (GetVal_col_at t o) by (auto; now apply col_at_nat). split; auto.
      destruct (wf_type_at _ W (Z.to_nat o)) as (ct & T & Hct). { unfold ColCount in R. lia. }
      transitivity (@Ok string ct); [|symmetry]; apply wf_ColType_iff; auto; eexists; split; try apply C'; eauto; congruence.
    + assert (I' : ~ In cn (cnames t)) by (intros H; apply I; eapply Permutation_in; [symmetry; exact PN|auto]).
      rewrite !GetVal_no_col by auto. split; auto. rewrite (proj2 (wf_ColType_err t' W' cn) I). symmetry. now apply wf_ColType_err.
Qed.

Theorem C12_rejected : forall t b order, ~ Permutation order (zseq (List.length (cnames t))) ->
  run (ReorderColsByColIndex order) b t = (t, Err).
Proof.
  intros t b order N. destruct (ReorderColsByColIndex_eq order (mkS t b [])) as [[P E]|[_ E]]; [contradiction|].
  now apply run_eq in E.
Qed.

(** By name: [names] must list every column exactly once. *)
Theorem C12_ReorderCols : forall t b names, wf_table t ->
  (Permutation names (cnames t) ->
     exists order, Forall2 (fun n o => col_at t o n) names order /\ Permutation order (zseq (List.length (cnames t)))
       /\ run (ReorderCols names) b t = run (ReorderColsByColIndex order) b t)
  /\ (~ Permutation names (cnames t) -> run (ReorderCols names) b t = (t, Err)).
Proof.
  intros t b names W.
  assert (KEY : forall order, List.length names = List.length (cnames t) -> Forall2 (fun n z => (0 <= z)%Z /\ nth_error (cnames t) (Z.to_nat z) = Some n) names order ->
     (Permutation names (cnames t) <-> Permutation order (zseq (List.length (cnames t))))).
  { intros order LE F.
    assert (NM : names = permute order "" (cnames t)).
    { clear LE. induction F as [|n z ns zs [H1 H2] _ IH]; auto. simpl. rewrite <- IH. f_equal. symmetry. now apply nth_error_nth. }
    split.
    - intros P. apply NoDup_Permutation_bis.
      + apply (NoDup_map_inv (fun i => nth (Z.to_nat i) (cnames t) "")).
        change (NoDup (permute order "" (cnames t))). rewrite <- NM. eapply Permutation_NoDup; [symmetry; exact P|apply (wf_nodup _ W)].
      + rewrite zseq_length. rewrite <- (Forall2_len _ _ _ F). lia.
      + intros z Hz. apply In_zseq. apply In_nth_error in Hz. destruct Hz as [i Hz].
        destruct (Forall2_nth_r _ _ _ _ _ F Hz) as (n & _ & H1 & H2). apply nth_error_some_lt in H2. lia.
    - intros P. rewrite NM. now apply permute_perm. }
  assert (RUN : forall order, mapM (ColIndex t) names = Ok order -> List.length names = List.length (cnames t) ->
     run (ReorderCols names) b t = run (ReorderColsByColIndex order) b t).
  { intros order M L. unfold run, ReorderCols. rewrite bind_get, bind_check. simpl s_tab.
    rewrite (proj2 (Nat.eqb_eq _ _) L). rewrite bind_reads. simpl s_tab. now rewrite M. }
  split.
  - intros P. pose proof (Permutation_length P) as L.
    destruct (mapM_ColIndex t names W) as [(order & M & F)|[_ N]].
    + exists order. split; [exact F|]. split; [now apply KEY|]. auto.
    + exfalso. apply N. intros n H. eapply Permutation_in; eauto.
  - intros NP. destruct (Nat.eq_dec (List.length names) (List.length (cnames t))) as [L|L].
    + destruct (mapM_ColIndex t names W) as [(order & M & F)|[M N]].
      * rewrite (RUN order M L). apply C12_rejected. rewrite <- (KEY order L F). auto.
      * unfold run, ReorderCols. rewrite bind_get, bind_check. simpl s_tab.
        rewrite (proj2 (Nat.eqb_eq _ _) L). rewrite bind_reads. simpl s_tab. now rewrite M.
    + unfold run, ReorderCols. rewrite bind_get, bind_check. simpl s_tab.
      now rewrite (proj2 (Nat.eqb_neq _ _) L).
Qed.

Example C12_nonvacuous :
  wf_table sample
  /\ cnames (fst (run (ReorderColsByColIndex [6;0;5;1;4;2;3]%Z) 9 sample)) = ["when";"id";"child";"item";"data";"price";"code"]
  /\ snd (run (ReorderColsByColIndex [6;0;5;1;4;2;2]%Z) 9 sample) = Err
  /\ GetVal (fst (run (ReorderCols ["when";"id";"child";"item";"data";"price";"code"]) 9 sample)) "item" 1 = Ok (VString "hammer").
Proof. split; [apply wf_sample|]. vm_compute. auto. Qed.

(** ---------- C13: Reverse and Shuffle ---------- *)

Theorem C13_Reverse : forall t b, wf_table t -> exists t', run Reverse b t = (t', Ok tt)
  /\ same_header t t' /\ RowCount t' = RowCount t
  /\ (forall c r, (0 <= r < RowCount t)%Z -> GetValByColIndex t' c r = GetValByColIndex t c (RowCount t - 1 - r))
  /\ run Reverse b t' = (t, Ok tt).
Proof.
  intros t b W. exists (with_rows (rev (rows t)) t).
  assert (E : forall t, run Reverse b t = (with_rows (rev (rows t)) t, Ok tt)) by (intros; unfold run; now rewrite Reverse_eq).
  split; [apply E|]. split; [apply same_header_rows|].
  assert (W' : wf_table (with_rows (rev (rows t)) t)) by (apply wf_perm_rows; auto; symmetry; apply Permutation_rev).
  split; [unfold RowCount; simpl; now rewrite rev_length|]. split.
  - intros c r Hr. rewrite !get_at by auto. unfold at_cell. simpl.
    destruct (Z.leb_spec 0 c); simpl; auto. unfold RowCount in *.
    destruct (Z.leb_spec 0 r); [|lia]. destruct (Z.leb_spec 0 (Z.of_nat (List.length (rows t)) - 1 - r)); [|lia].
    replace (nth_error (rev (rows t)) (Z.to_nat r)) with (nth_error (rows t) (Z.to_nat (Z.of_nat (List.length (rows t)) - 1 - r))); auto.
    rewrite (nth_error_nth' (rev (rows t)) []) by (rewrite rev_length; lia).
    rewrite rev_nth by lia. rewrite (nth_error_nth' (rows t) []) by lia. f_equal. f_equal. lia.
  - rewrite E. simpl. rewrite rev_involutive. f_equal. destruct t; reflexivity.
Qed.

(** Whatever the random source makes rand.Shuffle swap. *)
Theorem C13_Shuffle : forall t b swaps, exists t', run (Shuffle swaps) b t = (t', Ok tt)
  /\ same_header t t' /\ Permutation (rows t') (rows t).
Proof.
  intros t b swaps. eexists. split; [reflexivity|]. split; [apply same_header_rows|]. simpl. apply Shuffle_rows_perm.
Qed.

Example C13_nonvacuous : wf_table sample
  /\ GetVal (fst (run Reverse 9 sample)) "item" 2 = Ok (VString "spanner")
  /\ GetVal (fst (run (Shuffle [(2, 0); (1, 2)]) 9 sample)) "item" 1 = Ok (VString "spanner").
Proof. split; [apply wf_sample|]. vm_compute. auto. Qed.

(** ---------- C46: SwapCols does not keep the table well formed ---------- *)

(** What the code does: on success the name, type and lookup of two different columns are
    exchanged, and the cells stay where they were. *)
Theorem C46_swap_leaves_cells : forall t b c1 c2 t',
  run (SwapColsByColIndex c1 c2) b t = (t', Ok tt) -> rows t' = rows t.
Proof.
  intros t b c1 c2 t' R. unfold run, SwapColsByColIndex in R.
  rewrite bind_get, bind_check in R. destruct (HasColByColIndex _ c1); [|discriminate].
  rewrite bind_check in R. destruct (HasColByColIndex _ c2); [|discriminate].
  rewrite bind_check in R. destruct (negb (c1 =? c2)%Z); [|discriminate].
  rewrite !bind_modify, bind_reads in R. destruct (ColName _ c1); try discriminate.
  rewrite bind_reads in R. destruct (ColName _ c2); try discriminate.
  injection R as <-. reflexivity.
Qed.

(** So the property is false: on a well-formed table the result is not well formed, a
    read by name changes, and a typed getter then panics. *)
Theorem C46_refuted : exists t c1 c2 t', wf_table t /\
  run (SwapColsByColIndex c1 c2) 10 t = (t', Ok tt) /\ ~ wf_table t'
  /\ GetVal t' "id" 0 <> GetVal t "id" 0
  /\ GetT "int" t' "id" 0 = Panic.
Proof.
  exists sample, 0%Z, 1%Z. eexists. split; [apply wf_sample|]. split; [vm_compute; reflexivity|].
  split; [|split; [vm_compute; discriminate|vm_compute; reflexivity]].
  intros W. pose proof (C04 := wf_cells _ W). simpl in C04. inversion C04 as [|? ? F _]. inversion F as [|? ? ? ? HC _].
  destruct HC as [HC _]. simpl in HC. discriminate.
Qed.

Theorem C46_SwapCols_refuted : exists t n1 n2 t', wf_table t /\
  run (SwapCols n1 n2) 10 t = (t', Ok tt) /\ ~ wf_table t' /\ GetT "int" t' "id" 0 = Panic.
Proof.
  exists sample, "id", "item". eexists. split; [apply wf_sample|]. split; [vm_compute; reflexivity|].
  split; [|vm_compute; reflexivity].
  intros W. pose proof (C04 := wf_cells _ W). simpl in C04. inversion C04 as [|? ? F _]. inversion F as [|? ? ? ? HC _].
  destruct HC as [HC _]. simpl in HC. discriminate.
Qed.

(** Axioms used by any theorem of this file. *)
Definition all_Props_Struct :=
  (@C06_AppendRows,
   @C06_AppendRows_reads,
   @C06_AppendRows_rejected,
   @C06_AppendRow_is_AppendRows_1,
   @C07_AppendCol,
   @C07_AppendCol_rejected,
   @C07_NewTableFromMetadata,
   @C08_DeleteRows,
   @C08_DeleteRows_rejected,
   @C08_DeleteRow,
   @C08_DeleteRowsAll,
   @C09_DeleteColByColIndex,
   @C09_DeleteCol,
   @C09_rejected,
   @C10_RenameCol,
   @C10_rejected,
   @C12_ReorderColsByColIndex,
   @C12_rejected,
   @C12_ReorderCols,
   @C13_Reverse,
   @C13_Shuffle,
   @C46_swap_leaves_cells,
   @C46_refuted,
   @C46_SwapCols_refuted).
Print Assumptions all_Props_Struct.
