(** Spec_Deep.v -- the contents of nested tables, and what CopyDeep copies (C35). *)
From Coq Require Import ZArith NArith List String Ascii Bool Relations.
From Verif Require Import Base Model_Names Model_Table Model_Heap Spec Spec_Walk.
Import ListNotations.
Local Open Scope string_scope.
Local Open Scope list_scope.

(** What is seen of a table down to a number of levels: name, columns and cells, and in the
    place of a nested table what is seen of it.  Addresses are not seen. *)
Inductive sight :=
| Deeper
| ANilTable
| ATable (name : string) (colNames colTypes : list string) (cells : list (list seen_cell))
with seen_cell :=
| Plain (v : value)
| Nested (s : sight).
Fixpoint sight_of (levels : nat) (h : heap) (p : ptr) : sight :=
  match levels with
  | O => Deeper
  | S k =>
      let t := tab h p in
      if is_nil t then ANilTable
      else ATable (tname t) (cnames t) (ctypes t)
             (map (map (fun v => match v with VTable (Some q) => Nested (sight_of k h q) | _ => Plain v end)) (rows t))
  end.
(** The tables at p in h and at p' in h' hold the same, at every depth. *)
Definition same_sight (h : heap) (p : ptr) (h' : heap) (p' : ptr) : Prop :=
  forall levels, sight_of levels h' p' = sight_of levels h p.

(** The table of the last cell of a tour; [p] when there is none. *)
Definition last_cell_table (evs : list event) (p : ptr) : ptr :=
  fold_left (fun x e => match e with ECell q _ _ _ _ => q | _ => x end) evs p.
