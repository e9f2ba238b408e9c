(** Spec_Heap.v -- several tables: well-formedness and histories. *)
From Coq Require Import ZArith NArith List String Ascii Bool.
From Verif Require Import Base Model_Names Model_Table Model_Sort Model_Ops Model_Heap Spec Spec_Sort.
Import ListNotations.
Local Open Scope list_scope.

(** Every table is well formed, and the nested tables and the parents it refers to exist. *)
Record wf_heap (h : heap) : Prop := {
  wh_tables : Forall wf_table h;
  wh_nested : forall p t q, nth_error h p = Some t -> In q (nested_in (rows t)) -> q < List.length h;
  wh_parent : forall p t q, nth_error h p = Some t -> parent t = Some q -> q < List.length h }.

(** The heaps that a program can produce: it starts without tables and makes any calls with
    well-typed arguments, whatever they return. *)
Inductive reachable (E : env) : heap -> Prop :=
| reach_empty : reachable E []
| reach_call h c : reachable E h -> hop_typed h c = true -> reachable E (fst (hexec E c h)).

(** The table contents that a program can produce. *)
Definition reachable_table (E : env) (t : table) : Prop :=
  exists h p, reachable E h /\ nth_error h p = Some t.
