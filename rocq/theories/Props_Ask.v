(** Props_Ask.v -- what the questions about types, rows and columns answer, and what a new table is (C51). *)
From Coq Require Import ZArith List String Bool Lia.
From Verif Require Import Base Model_Names Model_Table Spec Proofs_Lib Proofs_Table Proofs_Cells Samples Props_Cells.
Import ListNotations.
Local Open Scope string_scope.
Local Open Scope list_scope.

(** The value is a number. *)
Definition number (v : value) : Prop := match v with VInt _ _ | VFloat32 _ | VFloat64 _ => True | _ => False end.

Lemma str_in_spec s l : str_in s l = true <-> In s l.
Proof. unfold str_in. rewrite existsb_exists. split; [intros (x & I & E); apply String.eqb_eq in E; now subst|intros I; exists s; split; [exact I|apply String.eqb_refl]]. Qed.
Lemma plain_zero ct v : zero_plain ct = Some v -> has_type ct v.
Proof.
  unfold zero_plain. intros E.
  repeat match type of E with (if ?a =? ?b then _ else _) = _ => destruct (String.eqb_spec a b) as [->|_]; [injection E as <-; cbn [has_type]; auto|] end.
  discriminate E.
Qed.

(** The column types are exactly the types that some cell value has. *)
Theorem C51_IsValidColType : forall ct, IsValidColType ct = true <-> exists v, has_type ct v.
Proof.
  intros ct. unfold IsValidColType. rewrite str_in_spec. split.
  - intros I. destruct (String.eqb_spec ct "*Table") as [->|N]; [exists (VTable (Some 0)); reflexivity|].
    destruct (zero_plain ct) as [v|] eqn:Z; [exists v; now apply plain_zero|]. exfalso.
    unfold all_types in I. repeat (destruct I as [<-|I]; [first [discriminate Z|now elim N]|]). exact I.
  - intros [v H]. destruct v as [| | |[]| | | |[]| |]; cbn [has_type] in H; try contradiction; try destruct H as [H|H]; subst ct; apply str_in_spec; reflexivity.
Qed.
Theorem C51_IsSliceColType : forall ct, IsSliceColType ct = true <-> exists bs, has_type ct (VBytes bs).
Proof.
  intros ct. unfold IsSliceColType. rewrite orb_true_iff, 2 String.eqb_eq. cbn [has_type]. split; [intros H; now exists None|intros [_ H]; exact H].
Qed.
Theorem C51_IsTableColType : forall ct, IsTableColType ct = true <-> exists p, has_type ct (VTable (Some p)).
Proof. intros ct. unfold IsTableColType. rewrite String.eqb_eq. cbn [has_type]. split; [intros H; now exists 0|intros [_ H]; exact H]. Qed.
(** A column type is numeric when its values are numbers, except that rune is not ... *)
Theorem C51_IsNumericColType : forall ct, IsValidColType ct = true ->
  (IsNumericColType ct = true <-> ct <> "rune" /\ exists v, has_type ct v /\ number v).
Proof.
  intros ct V. unfold IsNumericColType. rewrite str_in_spec. split.
  - intros I. apply str_in_spec in V.
    assert (N : ct <> "rune" /\ ct <> "complex").
    { split; intros ->; [apply str_in_spec in I; discriminate I|apply str_in_spec in V; discriminate V]. }
    split; [apply N|]. destruct (zero_plain ct) as [v|] eqn:Z.
    + exists v. split; [now apply plain_zero|]. unfold numeric_types in I.
      repeat (destruct I as [<-|I]; [first [injection Z as <-; exact Logic.I|now elim (proj2 N)]|]). destruct I.
    + exfalso. unfold numeric_types in I. repeat (destruct I as [<-|I]; [first [discriminate Z|now elim (proj2 N)]|]). exact I.
  - intros (NR & v & H & NV). destruct v as [| | |[]| | | |[]| |]; cbn [has_type number] in H, NV; try contradiction; try destruct H as [H|H]; subst ct; try (now elim NR); apply str_in_spec; reflexivity.
Qed.
(** ... although it is another name of int32, which is; and a name that is no column type is
    called numeric. *)
Theorem C51_IsNumericColType_refuted :
  (exists a b, same_go_type a b /\ IsValidColType a = true /\ IsValidColType b = true /\ IsNumericColType a = true /\ IsNumericColType b = false)
  /\ (exists ct, IsNumericColType ct = true /\ IsValidColType ct = false).
Proof.
  split; [exists "int32", "rune"|exists "complex"; split; reflexivity].
  split; [unfold same_go_type; intuition|]. repeat split.
Qed.

(** A cell can be read exactly when its row and its column are said to exist. *)
Theorem C51_existing_cells : forall t c r, wf_table t -> is_nil t = false ->
  (HasRow t r = true /\ HasColByColIndex t c = true <-> exists v, GetValByColIndex t c r = Ok v)
  /\ (HasRow t r = true <-> (0 <= r < RowCount t)%Z) /\ (HasColByColIndex t c = true <-> (0 <= c < ColCount t)%Z).
Proof.
  intros t c r W N.
  assert (R : HasRow t r = true <-> (0 <= r < RowCount t)%Z) by (unfold HasRow; rewrite negb_true_iff, orb_false_iff, Z.ltb_ge, Z.gtb_ltb, Z.ltb_ge; lia).
  assert (C : HasColByColIndex t c = true <-> (0 <= c < ColCount t)%Z) by (unfold HasColByColIndex; rewrite negb_true_iff, orb_false_iff, Z.ltb_ge, Z.gtb_ltb, Z.ltb_ge; lia).
  split; [|split; assumption]. unfold GetValByColIndex. rewrite N. split.
  - intros [A B]. rewrite A, B. cbn [negb]. apply R in A. apply C in B. destruct (wf_cell t W c r B A) as (ct & v & E). exists v. apply E.
  - intros [v E]. destruct (HasRow t r); [|discriminate E]. destruct (HasColByColIndex t c); [|discriminate E]. auto.
Qed.

(** NewTable makes a table of that name without columns, rows and sort keys, or refuses the name. *)
Theorem C51_NewTable : forall n,
  (valid_name n -> exists t, NewTable n = Ok t /\ wf_table t /\ tname t = n /\ is_nil t = false /\ cnames t = [] /\ rows t = [] /\ skeys t = []
     /\ struct_shape t = false /\ parent t = None)
  /\ (~ valid_name n -> NewTable n = Err).
Proof.
  intros n. unfold NewTable. rewrite <- C17_table_names. unfold run, SetName. split; intros V.
  - unfold check. rewrite V. eexists. split; [reflexivity|]. split; [|repeat split].
    split; cbn [s_tab tname is_nil cnames rows ctypes cmap fst with_name with_nil NewNilTable List.length]; try (now constructor).
    + left. split; [reflexivity|now apply C17_table_names].
    + intros m [|i]; split; discriminate.
  - unfold check. destruct (IsValidTableName n); [now elim V|reflexivity].
Qed.
(** SetStructShape changes the shape and nothing else. *)
Theorem C51_SetStructShape : forall t b s, exists t', run (SetStructShape s) b t = (t', Ok tt) /\ struct_shape t' = s /\ tname t' = tname t
  /\ cnames t' = cnames t /\ ctypes t' = ctypes t /\ rows t' = rows t /\ skeys t' = skeys t /\ is_nil t' = is_nil t /\ parent t' = parent t
  /\ (forall c r, GetValByColIndex t' c r = GetValByColIndex t c r) /\ (forall cn r, GetVal t' cn r = GetVal t cn r).
Proof. intros t b s. eexists. split; [reflexivity|]. repeat split. Qed.

Example C51_nonvacuous_ask : wf_table sample /\ is_nil sample = false /\ HasRow sample 0 = true /\ HasColByColIndex sample 1 = true /\ HasRow sample (-1) = false
  /\ IsValidColType "time.Time" = true /\ IsNumericColType "uint8" = true /\ IsNumericColType "bool" = false /\ (exists t, NewTable "T" = Ok t) /\ NewTable "int" = Err.
Proof. split; [apply wf_sample|]. repeat (split; [reflexivity|]). split; [eexists|]; reflexivity. Qed.

(** Axioms used by any theorem of this file. *)
Definition all_Props_Ask := (@C51_IsValidColType, @C51_IsSliceColType, @C51_IsTableColType, @C51_IsNumericColType, @C51_IsNumericColType_refuted, @C51_existing_cells,
  @C51_NewTable, @C51_SetStructShape).
Print Assumptions all_Props_Ask.
