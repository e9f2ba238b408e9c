(** Spec_Frame.v -- which of the existing tables a call may touch. *)
From Coq Require Import ZArith NArith List String Ascii Bool.
From Verif Require Import Base Model_Names Model_Table Model_Sort Model_Ops Model_Heap.
Import ListNotations.
Local Open Scope list_scope.

(** The tables that a call may change: its receiver, both arguments of Merge (their sort
    keys), and a table that is nested in the receiver (its parent). *)
Definition changes (c : hop) : list ptr :=
  match c with
  | HTab (Some p) (OSet _ _ _ (VTable (Some q))) | HTab (Some p) (OSetByColIndex _ _ _ (VTable (Some q))) => [p; q]
  | HTab (Some p) _ => [p]
  | HAppendRowsFromTable (Some p) _ _ _ | HAppendColsFromTable (Some p) _ | HSetSortKeysFromTable (Some p) _ => [p]
  | HMerge (Some p1) (Some p2) => [p1; p2]
  | HSortUnique (Some p) _ => [p]
  | _ => []
  end.
Definition renames (c : hop) : bool := match c with HTab _ (OSetName _) => true | _ => false end.
Definition deep (c : hop) : bool := match c with HCopyDeep _ _ => true | _ => false end.

(** The table that a call renames. *)
Definition renamed (c : hop) : list ptr := match c with HTab (Some p) (OSetName _) => [p] | _ => [] end.

(** Several calls one after the other, whatever they return. *)
Definition calls (E : env) (cs : list hop) (h : heap) : heap := fold_left (fun h c => fst (hexec E c h)) cs h.
