(** Spec_Keys.v -- histories that leave the columns that are sort keys alone. *)
From Coq Require Import ZArith List String Bool.
From Verif Require Import Base Model_Names Model_Table Model_Sort Model_Ops Model_Heap Spec Spec_Sort Spec_Heap.
Import ListNotations.
Local Open Scope list_scope.

(** The call deletes or renames a column that is a sort key of the table. *)
Definition spoils_key (h : heap) (c : hop) : Prop :=
  match c with
  | HTab (Some p) (ODeleteCol cn) | HTab (Some p) (ORenameCol cn _) => In cn (map k_col (skeys (tab h p)))
  | HTab (Some p) (ODeleteColByColIndex ci) | HTab (Some p) (ORenameColByColIndex ci _) =>
      exists cn, ColName (tab h p) ci = Ok cn /\ In cn (map k_col (skeys (tab h p)))
  | _ => False
  end.

(** As [reachable], by calls that do not spoil a key. *)
Inductive reachable_careful (E : env) : heap -> Prop :=
| careful_empty : reachable_careful E []
| careful_call h c : reachable_careful E h -> hop_typed h c = true -> ~ spoils_key h c -> reachable_careful E (fst (hexec E c h)).

(** Every sort key has a valid column name and a sortable type. *)
Definition keys_valid (t : table) : Prop :=
  Forall (fun k => valid_name (k_col k) /\ In (k_type k) sortable_types) (skeys t).
