(** Spec_Sets.v -- when two table sets are the same, and what a copy of a set is. *)
From Coq Require Import ZArith NArith List String Ascii Bool.
From Verif Require Import Base Model_Names Model_Table Model_Sort Model_Ops Model_Heap Model_TableSet.
From Verif Require Import Spec Spec_Copy Spec_Heap Spec_Walk Spec_Equals.
Import ListNotations.
Local Open Scope list_scope.

(** Two entries of sets: existing tables that are the same. *)
Definition same_entry (h : heap) (o1 o2 : ref) : Prop :=
  exists p1 p2, o1 = Some p1 /\ o2 = Some p2 /\ same_table (tab h p1) (tab h p2).

(** As many tables, the same ones in the same order.  The names of the sets do not count. *)
Definition same_sets (h : heap) (s1 s2 : tset) : Prop := Forall2 (same_entry h) (ts_tables s1) (ts_tables s2).

(** The entries are nil or tables of the program. *)
Definition entries_in (h : heap) (s : tset) : Prop := forall p, In (Some p) (ts_tables s) -> p < List.length h.

(** No table of the set has a nested table; no table of the set, nor one nested in it, holds
    a NaN. *)
Definition set_no_nested (h : heap) (s : tset) : Prop := forall p, In (Some p) (ts_tables s) -> no_nested (tab h p).
Definition set_no_nan (h : heap) (s : tset) : Prop := forall p, In (Some p) (ts_tables s) ->
  no_nan (tab h p) /\ forall q, In q (nested_in (rows (tab h p))) -> no_nan (tab h q).

(** A table that Copy accepts: there, not a NilTable, and nesting at most one level. *)
Definition copyable (h : heap) (o : ref) : Prop :=
  exists p, o = Some p /\ is_nil (tab h p) = false /\ flat_nesting h p.

(** o2, a table made after those of h, has the name, columns, types and cells of o1. *)
Definition copied (h h' : heap) (o1 o2 : ref) : Prop :=
  exists p q, o1 = Some p /\ o2 = Some q /\ List.length h <= q < List.length h'
    /\ fresh_table (tname (tab h p)) (tab h' q) /\ cnames (tab h' q) = cnames (tab h p)
    /\ ctypes (tab h' q) = ctypes (tab h p) /\ rows (tab h' q) = rows (tab h p).
