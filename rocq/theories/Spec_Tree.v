(** Spec_Tree.v -- nested tables below a table, and what StringNested prints. *)
From Coq Require Import ZArith List String Bool Relations.
From Verif Require Import Base Model_Names Model_Table Model_Heap Spec Spec_Walk.
Import ListNotations.
Local Open Scope string_scope.
Local Open Scope list_scope.

(** [z] is nested in [p], directly or further down. *)
Definition below (h : heap) (p z : ptr) : Prop := clos_trans _ (nests h) p z.

(** The two tables differ in their names at most (a NilTable is one without a name). *)
Definition name_only (t t' : table) : Prop := t' = with_name (tname t') (with_nil (is_nil t') t).

(** The positions (column, row) of the cells with nested tables: column by column. *)
Definition nested_cells (t : table) : list (nat * nat) :=
  flat_map (fun c => if string_dec (nth c (ctypes t) "") "*Table" then map (pair c) (seq 0 (List.length (rows t))) else [])
           (seq 0 (List.length (cnames t))).

(** The decimal digits of a row number *)
Definition digit (n : nat) : string := String (Ascii.ascii_of_nat (48 + n)) "".
Fixpoint digits (fuel n : nat) : string :=
  match fuel with
  | O => ""
  | S k => if Nat.ltb n 10 then digit n else (digits k (Nat.div n 10) ++ digit (Nat.modulo n 10))%string
  end.
Definition decimal (n : nat) : string := digits (S n) n.

(** The name under which the table in column [c], row [r] of [t] is printed *)
Definition printed_name (t : table) (old : string) (c r : nat) : string :=
  (old ++ "__FROM_TABLE_" ++ tname t ++ "_COL_" ++ nth c (cnames t) "" ++ "_row_" ++ decimal r)%string.
Definition named (n : string) (t : table) : table := with_name n (with_nil false t).
