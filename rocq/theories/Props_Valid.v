(** Props_Valid.v -- sort keys over histories (C40) and IsValidTable (C47). *)
From Coq Require Import ZArith NArith List String Ascii Bool Permutation Lia.
From Verif Require Import Base Model_Names Model_Table Model_Sort Model_Copy Model_Ops Model_Heap Model_TableSet.
From Verif Require Import Spec Spec_Sort Spec_Heap Spec_Walk Spec_Keys.
From Verif Require Import Proofs_Lib Proofs_Table Proofs_Cells Proofs_Struct Proofs_Api Proofs_Pres Samples Proofs_Copy Proofs_Env Proofs_Heap Proofs_Nesting.
From Verif Require Import Proofs_Frame Proofs_Equals Proofs_KeyInv Proofs_Valid Props_Sort Props_Heap Props_Walk.
Import ListNotations.
Local Open Scope string_scope.
Local Open Scope list_scope.

(** ---------- C40 ---------- *)

(** In any history of calls on any number of tables in which no call deletes or renames a
    column while it is a sort key of that table, every sort key of every table names a
    column of the table, with the key's type, which is a sortable type. *)
Theorem C40_keys_name_columns : forall E h p t, env_ok E -> reachable_careful E h -> nth_error h p = Some t -> keys_ok t.
Proof.
  intros E h p t EO R H. destruct (careful_keys E h EO R) as [_ A]. specialize (A p). unfold tab in A. now rewrite (nth_error_nth _ _ _ H) in A.
Qed.

(** So Sort() does not panic. *)
Theorem C40_Sort_never_panics : forall E h p t b, env_ok E -> reachable_careful E h -> nth_error h p = Some t ->
  snd (run (Sort E []) b t) = if (SortKeyCount t =? 0)%Z then Err else Ok tt.
Proof.
  intros E h p t b EO R H. pose proof (C40_keys_name_columns E h p t EO R H) as K. destruct (careful_keys E h EO R) as [WH _].
  assert (W : wf_table t) by apply (Forall_nth_error _ _ _ _ (wh_tables _ WH) H).
  unfold SortKeyCount. destruct (skeys t) as [|k ks] eqn:EK.
  - rewrite C18_no_keys by auto. reflexivity.
  - destruct (C18_Sort E t b EO W) as (t' & -> & _); [rewrite EK; discriminate|auto|reflexivity].
Qed.

(** And whatever the calls, a sort key has a valid column name and a sortable type. *)
Theorem C40_keys_valid : forall E h p t, env_ok E -> reachable E h -> nth_error h p = Some t -> keys_valid t.
Proof.
  intros E h p t EO R H. pose proof (reachable_keys_valid E h EO R p) as A. unfold tab in A. now rewrite (nth_error_nth _ _ _ H) in A.
Qed.

(** Non-vacuity: a careful history in which columns are deleted and renamed, keys are
    copied between tables, and tables are merged. *)
Fixpoint careful_play (E : env) (cs : list hop) (h : heap) : Prop :=
  match cs with
  | [] => True
  | c :: r => hop_typed h c = true /\ ~ spoils_key h c /\ careful_play E r (fst (hexec E c h))
  end.
Lemma careful_play_reachable E cs : forall h, reachable_careful E h -> careful_play E cs h ->
  reachable_careful E (fold_left (fun h c => fst (hexec E c h)) cs h).
Proof.
  induction cs as [|c cs IH]; simpl; intros h R P; auto. destruct P as (T & N & P). apply IH; auto. now apply careful_call.
Qed.
Definition careful_history : list hop :=
  [ HNewTable "A"; HTab (Some 0) (OAppendCol "id" "int"); HTab (Some 0) (OAppendCol "x" "string"); HTab (Some 0) (OAppendCol "y" "bool");
    HTab (Some 0) (OAppendRows 2); HTab (Some 0) (OSetSortKeys ["id"; "x"]); HTab (Some 0) (ODeleteCol "y");
    HNewTable "B"; HTab (Some 1) (OAppendCol "id" "int"); HTab (Some 1) (OAppendCol "x" "string"); HTab (Some 1) (OAppendCol "z" "string");
    HTab (Some 1) (OAppendRows 1); HSetSortKeysFromTable (Some 1) (Some 0); HTab (Some 1) (ORenameCol "z" "w");
    HTab (Some 1) (OSetSortKeysReverse ["x"]); HMerge (Some 0) (Some 1) ].
Example C40_nonvacuous : exists h t, reachable_careful env0 h /\ nth_error h 2 = Some t /\ tname t = "Merged"
  /\ map k_col (skeys t) = ["id"; "x"].
Proof.
  assert (P : careful_play env0 careful_history []).
  { unfold careful_history. repeat (split; [reflexivity|split; [cbn [spoils_key]; vm_compute; intuition discriminate|]]). exact I. }
  apply careful_play_reachable in P; [|constructor]. eexists _, _. split; [exact P|]. split; [vm_compute; reflexivity|]. split; reflexivity.
Qed.

(** ---------- C47 ---------- *)

(** Well-formed tables with valid keys pass every test but the one of the nesting. *)
Lemma IsValidTable_wf h (p : ptr) : wf_heap h -> is_nil (tab h p) = false -> keys_valid (tab h p) ->
  IsValidTable h p = match IsValidTableNesting h p with Panic => VPanic | Err => Invalid | Ok _ => Valid end.
Proof.
  intros WH N KV. destruct (tab_wf h p WH) as [W _].
  assert (VN : IsValidTableName (tname (tab h p)) = true) by (now apply sname_cases).
  unfold IsValidTable.
  destruct (String.eqb_spec (tname (tab h p)) ""); [rewrite e in VN; discriminate|]. rewrite VN. cbn [negb].
  assert (FN : forallb IsValidColName (cnames (tab h p)) = true).
  { apply forallb_forall. intros x I. apply IsValidColName_spec. pose proof (wf_colnames _ W) as F. rewrite Forall_forall in F. auto. }
  assert (FT : forallb IsValidColType (ctypes (tab h p)) = true).
  { apply forallb_forall. intros x I. apply IsValidColType_spec. pose proof (wf_types _ W) as F. rewrite Forall_forall in F. auto. }
  rewrite FN, FT, (wf_types_len _ W), (wf_map_len _ W), Nat.eqb_refl. cbn [negb]. rewrite wf_names_map by auto.
  destruct (rows_check (tab h p)) as [_ RC]. rewrite (proj2 RC).
  2:{ eapply Forall_impl; [|apply (wf_cells _ W)]. intros row F. rewrite <- (wf_types_len _ W). symmetry. eapply Forall2_len; eauto. }
  replace (forallb _ (skeys (tab h p))) with true; [reflexivity|]. symmetry. apply forallb_forall. intros k I.
  unfold keys_valid in KV. rewrite Forall_forall in KV. destruct (KV k I) as [A B].
  apply IsValidColName_spec in A. rewrite A. rewrite (proj2 (str_in_In _ _) B), andb_true_r. simpl.
  apply IsValidColType_spec. unfold sortable_types, all_types in *. simpl in *. intuition (subst; simpl; auto 30).
Qed.

(** On the tables of any history IsValidTable never panics and never returns
    (false, nil); it returns (true, nil) exactly for the tables that are no NilTable and
    whose nesting, if any, is flat (see C33), and (false, err) for the others. *)
Theorem C47_reachable_tables : forall E h (p : ptr), env_ok E -> reachable E h -> p < List.length h ->
  (is_nil (tab h p) = false -> flat_nesting h p -> IsValidTable h p = Valid)
  /\ (~ (is_nil (tab h p) = false /\ flat_nesting h p) -> IsValidTable h p = Invalid).
Proof.
  intros E h p EO R L. pose proof (reachable_wf E h EO R) as WH. destruct (tab_wf h p WH) as [W _].
  pose proof (reachable_keys_valid E h EO R p) as KV.
  destruct (is_nil (tab h p)) eqn:N.
  - split; [discriminate|]. intros _. destruct (wf_name _ W) as [[? _]|(_ & EN & _)]; [congruence|]. unfold IsValidTable. now rewrite EN.
  - pose proof (IsValidTable_wf h p WH N KV) as V.
    rewrite V. pose proof (IsValidTableNesting_iff h p WH L) as IV. pose proof (IsValidTableNesting_no_panic h p WH L) as NP. split.
    + intros _ F. now rewrite (proj2 IV F).
    + intros NF. destruct (IsValidTableNesting h p) as [[]| |]; [|reflexivity|congruence]. exfalso. apply NF. split; auto. now apply IV.
Qed.

(** Conversely, for any table contents, however made: an accepted table has a valid name,
    distinct valid column names, valid column types, as many types as columns, rows of the
    right length, and a lookup with one entry per column that is right for every column
    after the first. *)
Theorem C47_accepted_is_consistent : forall h (p : ptr), IsValidTable h p = Valid ->
  let t := tab h p in
  valid_name (tname t) /\ NoDup (cnames t) /\ Forall valid_name (cnames t)
  /\ List.length (ctypes t) = List.length (cnames t) /\ Forall (fun ct => In ct all_types) (ctypes t)
  /\ Forall (fun row => List.length row = List.length (cnames t)) (rows t)
  /\ map_len (cmap t) = List.length (cnames t)
  /\ (forall n i, nth_error (cnames t) i = Some n -> 0 < i -> mget (cmap t) n = Some i)
  /\ (forall n i, nth_error (cnames t) 0 = Some n -> mget (cmap t) n = Some i -> i = 0)
  /\ keys_valid t.
Proof.
  intros h p. unfold IsValidTable. cbv zeta. set (t := tab h p).
  destruct (tname t =? ""); [discriminate|]. destruct (IsValidTableName (tname t)) eqn:VN; [|discriminate]. cbn [negb].
  destruct (forallb IsValidColName (cnames t)) eqn:FN; [|discriminate]. cbn [negb].
  destruct (forallb IsValidColType (ctypes t)) eqn:FT; [|discriminate]. cbn [negb].
  destruct (Nat.eqb_spec (List.length (ctypes t)) (List.length (cnames t))) as [EL|]; [|discriminate]. cbn [negb].
  destruct (Nat.eqb_spec (map_len (cmap t)) (List.length (cnames t))) as [EM|]; [|discriminate]. cbn [negb].
  destruct (isValidColNamesMap t) as [[]| |] eqn:CM; try discriminate.
  destruct (rows_check t) as [_ RC]. destruct (rfor (zseq (List.length (rows t))) (IsValidRow t)) as [[]| |]; try discriminate.
  destruct (IsValidTableNesting h p) as [[]| |]; try discriminate.
  match goal with |- (if ?c then _ else _) = _ -> _ => destruct c eqn:KV; [|discriminate] end. intros _.
  rewrite forallb_forall in FN, FT, KV. 
  assert (MG : forall n i, nth_error (cnames t) i = Some n -> mgetd (cmap t) n = i).
  { intros n i A. unfold isValidColNamesMap in CM. rewrite EM in CM.
    destruct (rfor_spec (zseq (List.length (cnames t))) (fun ci => match znth (cnames t) ci with
        | Some n => rcheck (Z.of_nat (mgetd (cmap t) n) =? ci)%Z | None => Panic end)) as [_ Q].
    { intros x I. apply In_zseq in I. destruct (nth_error_lt (cnames t) (Z.to_nat x)) as [m B]; [lia|].
      rewrite (proj2 (znth_some _ _ _) (conj (proj1 I) B)). unfold rcheck. now destruct (_ =? _)%Z. }
    assert (I : In (Z.of_nat i) (zseq (List.length (cnames t)))) by (apply In_zseq; apply nth_error_some_lt in A; lia).
    pose proof (proj1 Q CM _ I) as C. cbv beta in C. rewrite znth_of_nat, A in C. unfold rcheck in C.
    destruct (Z.eqb_spec (Z.of_nat (mgetd (cmap t) n)) (Z.of_nat i)); [lia|discriminate]. }
  split; [now apply IsValidTableName_spec|]. split.
  { apply NoDup_nth_error. intros i j Li E. destruct (nth_error_lt _ _ Li) as [n A]. rewrite A in E. symmetry in E.
    apply MG in A, E. congruence. }
  split; [apply Forall_forall; intros x I; apply IsValidColName_spec; auto|]. split; [auto|].
  split; [apply Forall_forall; intros x I; apply IsValidColType_spec; auto|]. split; [now apply RC|]. split; [auto|]. split.
  { intros n i A Hi. apply MG in A. unfold mgetd in A. destruct (mget (cmap t) n); [congruence|lia]. }
  split. { intros n i A B. apply MG in A. unfold mgetd in A. rewrite B in A. congruence. }
  apply Forall_forall. intros k I. specialize (KV k I). apply andb_true_iff in KV as [A B]. apply andb_true_iff in A as [A _].
  split; [now apply IsValidColName_spec|now apply str_in_In].
Qed.

(** Row i is accepted exactly when it exists and has a cell for every column. *)
Theorem C47_IsValidRow : forall t ri, IsValidRow t ri <> Panic
  /\ (IsValidRow t ri = Ok tt <-> exists row, (0 <= ri)%Z /\ nth_error (rows t) (Z.to_nat ri) = Some row /\ List.length row = List.length (cnames t)).
Proof. exact IsValidRow_spec. Qed.

(** What the property says and the code does not do.  A reachable table that is nested
    two deep, and a reachable NilTable, are rejected. *)
Theorem C47_deep_nesting_refuted : exists h, reachable env0 h /\ wf_table (tab h 0) /\ is_nil (tab h 0) = false /\ IsValidTable h 0 = Invalid.
Proof.
  exists deep_heap. split; [apply deep_reachable|]. split; [|split; vm_compute; reflexivity].
  apply (tab_wf deep_heap 0). eapply reachable_wf; [apply env0_ok|apply deep_reachable].
Qed.
Theorem C47_NilTable_refuted : exists h, reachable env0 h /\ nth_error h 0 = Some NewNilTable /\ IsValidTable h 0 = Invalid.
Proof. exists (fst (hexec env0 HNewNilTable [])). split; [apply reach_call; [constructor|reflexivity]|]. split; reflexivity. Qed.
(** An inconsistent lookup gives (false, nil) instead of an error. *)
Theorem C47_wrong_lookup_no_error_refuted : exists t,
  ~ (forall n i, mget (cmap t) n = Some i <-> nth_error (cnames t) i = Some n) /\ IsValidTable [t] 0 = InvalidNoError.
Proof.
  exists (mkT "T" ["a"; "b"] ["int"; "int"] [("a", 1); ("b", 0)] [] [] false false None). split; [|vm_compute; reflexivity].
  intros H. specialize (H "a" 1). simpl in H. destruct H as [H _]. discriminate (H eq_refl).
Qed.
(** A lookup without the first column is accepted. *)
Theorem C47_missing_first_column_refuted : exists t,
  ~ (forall n i, mget (cmap t) n = Some i <-> nth_error (cnames t) i = Some n) /\ IsValidTable [t] 0 = Valid.
Proof.
  exists (mkT "T" ["a"] ["int"] [("z", 7)] [] [] false false None). split; [|vm_compute; reflexivity].
  intros H. specialize (H "a" 0). simpl in H. destruct H as [_ H]. discriminate (H eq_refl).
Qed.
(** A cell of the wrong type is accepted. *)
Theorem C47_wrong_cell_type_refuted : exists t,
  ~ Forall (Forall2 cell_ok (ctypes t)) (rows t) /\ IsValidTable [t] 0 = Valid.
Proof.
  exists (mkT "T" ["a"] ["int"] [("a", 0)] [[VString "x"]] [] false false None). split; [|vm_compute; reflexivity].
  intros H. inversion H as [|? ? F _]; subst. inversion F as [|? ? ? ? [C _] _]; subst. discriminate C.
Qed.

Example C47_nonvacuous : reachable env0 history_heap /\ 0 < List.length history_heap /\ is_nil (tab history_heap 0) = false
  /\ flat_nesting history_heap 0 /\ nested_in (rows (tab history_heap 0)) <> [] /\ rows (tab history_heap 0) <> []
  /\ IsValidTable history_heap 0 = Valid.
Proof.
  split; [apply history_reachable|]. split; [vm_compute; repeat constructor|]. split; [reflexivity|].
  split; [apply C33_nonvacuous|]. split; [discriminate|]. split; [discriminate|]. vm_compute. reflexivity.
Qed.

(** Axioms used by any theorem of this file. *)
Definition all_Props_Valid :=
  (@C40_keys_name_columns,
   @C40_Sort_never_panics,
   @C40_keys_valid,
   @C47_reachable_tables,
   @C47_accepted_is_consistent,
   @C47_IsValidRow,
   @C47_deep_nesting_refuted,
   @C47_NilTable_refuted,
   @C47_wrong_lookup_no_error_refuted,
   @C47_missing_first_column_refuted,
   @C47_wrong_cell_type_refuted).
Print Assumptions all_Props_Valid.
