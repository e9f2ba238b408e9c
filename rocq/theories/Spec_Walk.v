(** Spec_Walk.v -- nesting of tables and the order in which a walk visits it. *)
From Coq Require Import ZArith NArith List String Ascii Bool Relations.
From Verif Require Import Base Model_Names Model_Table Model_Heap Spec.
Import ListNotations.
Local Open Scope string_scope.
Local Open Scope list_scope.

(** What a walk can report: a table, row r of a table, the cell at column c, row r of a
    table (with the name and type of its column). *)
Inductive event :=
| ETable (p : ptr)
| ERow (p : ptr) (r : Z)
| ECell (p : ptr) (name type : string) (c r : Z).

(** The table at p nests the table at q. *)
Definition nests (h : heap) (p q : ptr) : Prop :=
  exists t, nth_error h p = Some t /\ In q (nested_in (rows t)).

(** [visits h p evs]: evs is the depth-first tour of the nested tables below p: the table,
    then each row in order, in each row each cell in column order, and directly after a
    cell the tour of the table nested in it.  There is one exactly when the nesting below
    p has finite depth. *)
Inductive visits (h : heap) : ptr -> list event -> Prop :=
| vis_table p t evs :
    nth_error h p = Some t -> visits_rows h p t 0 (rows t) evs ->
    visits h p (ETable p :: evs)
with visits_rows (h : heap) : ptr -> table -> Z -> list (list value) -> list event -> Prop :=
| vis_norow p t r : visits_rows h p t r [] []
| vis_row p t r row rs ce re :
    visits_cells h p t r 0 (cnames t) (ctypes t) row ce -> visits_rows h p t (r + 1) rs re ->
    visits_rows h p t r (row :: rs) (ERow p r :: ce ++ re)
with visits_cells (h : heap) : ptr -> table -> Z -> Z -> list string -> list string -> list value -> list event -> Prop :=
| vis_nocell p t r c : visits_cells h p t r c [] [] [] []
| vis_cell p t r c n ns ct cts v vs evs :
    ct <> "*Table" -> visits_cells h p t r (c + 1) ns cts vs evs ->
    visits_cells h p t r c (n :: ns) (ct :: cts) (v :: vs) (ECell p n ct c r :: evs)
| vis_nested p t r c n ns cts q vs qe evs :
    visits h q qe -> visits_cells h p t r (c + 1) ns cts vs evs ->
    visits_cells h p t r c (n :: ns) ("*Table" :: cts) (VTable (Some q) :: vs)
                 (ECell p n "*Table" c r :: qe ++ evs).

(** The tables that a tour enters, in order. *)
Definition tables_of (evs : list event) : list ptr :=
  flat_map (fun e => match e with ETable p => [p] | _ => [] end) evs.

(** The nesting below p is a tree: it is finite and no table occurs twice. *)
Definition tree (h : heap) (p : ptr) : Prop := exists evs, visits h p evs /\ NoDup (tables_of evs).

(** Calling the visitor functions (state transformers that may fail) on a list of events,
    stopping at the first error. *)
Definition visitor (X A : Type) := A -> X -> X * res unit.
Fixpoint feed {X} (vT : visitor X ptr) (vR : visitor X (ptr * Z)) (vC : visitor X cell_info)
    (evs : list event) (x : X) : X * res unit :=
  match evs with
  | [] => (x, Ok tt)
  | e :: r =>
      let '(x', o) := match e with
                      | ETable p => vT p x
                      | ERow p i => vR (p, i) x
                      | ECell p n ct c i => vC (mkCI p n ct c i) x
                      end in
      match o with Ok _ => feed vT vR vC r x' | Err => (x', Err) | Panic => (x', Panic) end
  end.

(** A visitor as a step of a walk: it changes only the state captured by the visitors. *)
Definition pure_step {X A} (v : visitor X A) (a : A) : W X unit :=
  fun s => let '(x', o) := v a (w_x s) in (mkW (w_heap s) (w_safe s) x', o).

(** Nested tables, if any, are pairwise different, are not the table itself, and nest no
    further tables. *)
Definition flat_nesting (h : heap) (p : ptr) : Prop :=
  NoDup (p :: nested_in (rows (tab h p)))
  /\ forall q, In q (nested_in (rows (tab h p))) -> nested_in (rows (tab h q)) = [].

(** Starting at p one can come back to a table. *)
Definition circular (h : heap) (p : ptr) : Prop :=
  exists q, clos_refl_trans _ (nests h) p q /\ clos_trans _ (nests h) q q.

(** The events of the table at p alone: the table, then row by row its cells. *)
Definition own_row (p : ptr) (t : table) (r : Z) : list event :=
  ERow p r :: map (fun c => ECell p (nth (Z.to_nat c) (cnames t) "") (nth (Z.to_nat c) (ctypes t) "") c r) (zseq (List.length (cnames t))).
Definition own_tour (p : ptr) (t : table) : list event := ETable p :: flat_map (own_row p t) (zseq (List.length (rows t))).
