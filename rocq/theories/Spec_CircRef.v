(** Spec_CircRef.v -- which table is nested a second time. *)
From Coq Require Import List String.
From Verif Require Import Base Model_Names Model_Table Model_Heap Spec.
Import ListNotations.
Local Open Scope string_scope.
Local Open Scope list_scope.

(** Read cell by cell, q is the first table in the list that is p or was there before. *)
Definition first_repeat (p : ptr) (l : list ptr) (q : ptr) : Prop :=
  exists earlier later, l = earlier ++ q :: later /\ NoDup (p :: earlier) /\ In q (p :: earlier).

(** The tables nested in the table at p, other than itself, nest no tables. *)
Definition shallow (h : heap) (p : ptr) : Prop :=
  forall q, In q (nested_in (rows (tab h p))) -> q <> p -> nested_in (rows (tab h q)) = [].

(** What the error says. *)
Definition circ_text (root circ : string) : string :=
  "CircRefError: circular reference in table [" ++ root ++ "]: a reference to table [" ++ circ ++ "] already exists".
