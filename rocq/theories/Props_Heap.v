(** Props_Heap.v -- histories over any number of tables: C01, C04, C05 on reachable tables. *)
From Coq Require Import ZArith NArith List String Ascii Bool SpecFloat Permutation Lia.
From Verif Require Import Base Model_Names Model_Table Model_Sort Model_Copy Model_Merge Model_Ops Model_Heap.
From Verif Require Import Spec Spec_Sort Spec_Heap.
From Verif Require Import Proofs_Lib Proofs_Table Proofs_Cells Proofs_Api Proofs_Pres Proofs_Env Proofs_Heap Samples Props_Cells.
Import ListNotations.
Local Open Scope string_scope.
Local Open Scope list_scope.

(** ---------- a concrete history ---------- *)

(** Make the calls one after the other, checking that the arguments are well typed. *)
Fixpoint play (E : env) (cs : list hop) (h : heap) : option heap :=
  match cs with
  | [] => Some h
  | c :: r => if hop_typed h c then play E r (fst (hexec E c h)) else None
  end.
Lemma play_reachable E cs : forall h h', reachable E h -> play E cs h = Some h' -> reachable E h'.
Proof.
  induction cs as [|c r IH]; simpl; intros h h' R H; [now injection H as <-|].
  destruct (hop_typed h c) eqn:T; [|discriminate]. apply IH in H; auto. now apply reach_call.
Qed.

(** Two tables are built, the second is nested in the first; some calls fail (a repeated
    column, a bad type, an absent column, rows out of range), one panics; then the tables
    are sorted, merged and copied. *)
Definition history : list hop :=
  [ HNewTable "Parts"; HNewTable "Sub";
    HTab (Some 0) (OAppendCol "id" "int"); HTab (Some 0) (OAppendCol "id" "string");
    HTab (Some 0) (OAppendCol "x" "complex"); HTab (Some 0) (OAppendRows 3);
    HTab (Some 0) (OAppendCol "w" "float64"); HTab (Some 0) (OAppendCol "child" "*Table");
    HTab (Some 1) (OAppendCol "id" "int"); HTab (Some 1) (OAppendCol "s" "string");
    HTab (Some 1) (OAppendRows 2);
    HTab (Some 1) (OSet "string" "s" 1 (VString "hello"));
    HTab (Some 0) (OSet "int" "id" 0 (VInt KInt 9)); HTab (Some 0) (OSetVal "w" 1 (VInt KInt 9));
    HTab (Some 0) (OSet "int" "id" 7 (VInt KInt 9));
    HTab (Some 0) (OSetByColIndex "int" 9 0 (VInt KInt 9));
    HTab (Some 0) (OSet "*Table" "child" 2 (VTable (Some 1)));
    HTab (Some 0) (OSort ["id"]); HTab (Some 0) (ODeleteRow 0); HTab (Some 0) (ODeleteRow 8);
    HTab None OAppendRow;
    HTab (Some 1) (OSetSortKeys ["id"; "s"]);
    HMerge (Some 1) (Some 1); HCopy (Some 0); HAppendColsFromTable (Some 0) (Some 1);
    HGetColInfoAsTable (Some 0); HSortUnique (Some 1) ["s"]; HTab (Some 0) (ODeleteCol "w") ].

Definition history_heap : heap := Eval vm_compute in
  match play env0 history [] with Some h => h | None => [] end.
Lemma history_played : play env0 history [] = Some history_heap.
Proof. vm_compute. reflexivity. Qed.
Lemma history_reachable : reachable env0 history_heap.
Proof. eapply play_reachable; [apply reach_empty|apply history_played]. Qed.

(** ---------- C01 ---------- *)

(** Whatever calls a program makes on any number of tables, with any well-typed arguments
    and whatever the calls return, every table is well formed. *)
Theorem C01_every_reachable_table_is_well_formed : forall E t, env_ok E -> reachable_table E t -> wf_table t.
Proof.
  intros E t EO (h & p & R & H). apply (Forall_nth_error _ _ _ _ (wh_tables _ (reachable_wf E h EO R)) H).
Qed.

(** Nested tables and parent tables exist. *)
Theorem C01_nested_tables_exist : forall E h p t q, env_ok E -> reachable E h -> nth_error h p = Some t ->
  In q (nested_in (rows t)) \/ parent t = Some q -> exists u, nth_error h q = Some u /\ wf_table u.
Proof.
  intros E h p t q EO R H Q. pose proof (reachable_wf E h EO R) as [WT WN WP].
  assert (L : q < List.length h) by (destruct Q as [Q|Q]; eauto).
  destruct (nth_error h q) as [u|] eqn:U; [|apply nth_error_None in U; lia].
  exists u. split; auto. apply (Forall_nth_error _ _ _ _ WT U).
Qed.

(** One step, from any heap of well-formed tables (not only reachable ones). *)
Theorem C01_each_call_keeps_tables_well_formed : forall E h c, env_ok E -> wf_heap h -> hop_typed h c = true ->
  wf_heap (fst (hexec E c h)) /\ List.length h <= List.length (fst (hexec E c h)).
Proof. intros E h c EO W T. apply (hexec_wf E c h EO W T). Qed.

Example C01_nonvacuous : env_ok env0 /\ reachable env0 history_heap /\ List.length history_heap = 11
  /\ (exists t, reachable_table env0 t /\ tname t = "Parts" /\ RowCount t = 2%Z /\ cnames t = ["id"; "child"; "s"])
  /\ (exists p t q, nth_error history_heap p = Some t /\ In q (nested_in (rows t))).
Proof.
  split; [apply env0_ok|]. split; [apply history_reachable|]. split; [reflexivity|]. split.
  - eexists. split; [exists history_heap, 0; split; [apply history_reachable|reflexivity]|]. repeat split.
  - exists 0. eexists. exists 1. split; [reflexivity|]. vm_compute. auto.
Qed.

(** ---------- C04, C05 on reachable tables ---------- *)

Lemma GetVal_never_panic t cn c r : wf_table t -> GetVal t cn r <> Panic /\ GetValByColIndex t c r <> Panic.
Proof.
  intros W.
  assert (G : forall c, GetValByColIndex t c r <> Panic).
  { intros c'. destruct (C04_GetValByColIndex t c' r W) as [A B].
    destruct (Z_le_dec 0 c'), (Z_lt_dec c' (ColCount t)), (Z_le_dec 0 r), (Z_lt_dec r (RowCount t));
      try (rewrite B; [discriminate|lia]). destruct A as (ct & v & _ & -> & _); [lia|discriminate]. }
  split; auto. unfold GetVal. destruct (is_nil t); [discriminate|]. unfold ColIndex.
  destruct (mget (cmap t) cn); simpl; [auto|discriminate].
Qed.

Theorem C04_reachable_by_name : forall E vt t cn r, env_ok E -> reachable_table E t -> In vt all_types ->
  ((exists c ct, col_at t c cn /\ nth_error (ctypes t) (Z.to_nat c) = Some ct /\ same_go_type vt ct /\ (0 <= r < RowCount t)%Z)
     /\ exists v, GetT vt t cn r = Ok v /\ has_type vt v)
  \/ (~ (exists c ct, col_at t c cn /\ nth_error (ctypes t) (Z.to_nat c) = Some ct /\ same_go_type vt ct /\ (0 <= r < RowCount t)%Z)
     /\ GetT vt t cn r = Err).
Proof.
  intros E vt t cn r EO R Hvt. pose proof (C01_every_reachable_table_is_well_formed E t EO R) as W.
  destruct (GetT_eq vt t cn r W Hvt) as [(c & ct & C & T & SG & Hr & GE & v & V & HT)|[N GE]]; [left|right]; split; auto.
  - exists c, ct. auto.
  - exists v. split; congruence.
Qed.

Theorem C04_reachable_by_index : forall E vt t c r, env_ok E -> reachable_table E t -> In vt all_types ->
  ((exists ct, (0 <= c < ColCount t)%Z /\ nth_error (ctypes t) (Z.to_nat c) = Some ct /\ same_go_type vt ct /\ (0 <= r < RowCount t)%Z)
     /\ exists v, GetTByColIndex vt t c r = Ok v /\ has_type vt v)
  \/ (~ (exists ct, (0 <= c < ColCount t)%Z /\ nth_error (ctypes t) (Z.to_nat c) = Some ct /\ same_go_type vt ct /\ (0 <= r < RowCount t)%Z)
     /\ GetTByColIndex vt t c r = Err).
Proof.
  intros E vt t c r EO R Hvt. pose proof (C01_every_reachable_table_is_well_formed E t EO R) as W.
  destruct (GetTByColIndex_eq vt t c r W Hvt) as [(ct & C & T & SG & Hr & GE & v & V & HT)|[N GE]]; [left|right]; split; auto.
  - exists ct. auto.
  - exists v. split; congruence.
Qed.

(** No typed getter panics on a reachable table, nor do the untyped ones. *)
Corollary C04_reachable_never_panic : forall E vt t cn c r, env_ok E -> reachable_table E t -> In vt all_types ->
  GetT vt t cn r <> Panic /\ GetTByColIndex vt t c r <> Panic /\ GetVal t cn r <> Panic /\ GetValByColIndex t c r <> Panic.
Proof.
  intros E vt t cn c r EO R Hvt. pose proof (C01_every_reachable_table_is_well_formed E t EO R) as W.
  destruct (C04_reachable_by_name E vt t cn r EO R Hvt) as [[_ (v & V & _)]|[_ V]]; rewrite V;
  destruct (C04_reachable_by_index E vt t c r EO R Hvt) as [[_ (w & X & _)]|[_ X]]; rewrite X;
  (split; [discriminate|split; [discriminate|]]); now apply GetVal_never_panic.
Qed.

Theorem C05_reachable : forall E t c cn, env_ok E -> reachable_table E t -> col_at t c cn ->
  ColIndex t cn = Ok c /\ ColName t c = Ok cn /\ ColType t cn = ColTypeByColIndex t c
  /\ (forall r, GetVal t cn r = GetValByColIndex t c r)
  /\ (forall b r v, run (SetVal cn r v) b t = run (SetValByColIndex c r v) b t)
  /\ (forall vt b r v, run (SetT vt cn r v) b t = run (SetTByColIndex vt c r v) b t).
Proof.
  intros E t c cn EO R C. pose proof (C01_every_reachable_table_is_well_formed E t EO R) as W.
  destruct (C05_queries t c cn W C) as (A & B & _ & D & F & _). repeat split; auto; intros.
  - now apply C05_SetVal.
  - now apply C05_typed_setters.
Qed.

Example C04_nonvacuous_reachable : exists t, reachable_table env0 t /\
  GetT "int" t "id" 1 = Ok (VInt KInt 9) /\ GetT "string" t "id" 1 = Err /\ GetT "int" t "id" (-1) = Err
  /\ col_at t 1 "child".
Proof.
  eexists. split; [exists history_heap, 0; split; [apply history_reachable|reflexivity]|]. repeat split; reflexivity || discriminate.
Qed.

(** Axioms used by any theorem of this file. *)
Definition all_Props_Heap :=
  (@C01_every_reachable_table_is_well_formed,
   @C01_nested_tables_exist,
   @C01_each_call_keeps_tables_well_formed,
   @C04_reachable_by_name,
   @C04_reachable_by_index,
   @C05_reachable).
Print Assumptions all_Props_Heap.
