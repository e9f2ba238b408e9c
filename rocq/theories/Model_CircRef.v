(** Model_CircRef.v -- errors.go, and the error values of IsValidTableNesting. *)
From Coq Require Import ZArith List String Bool.
From Verif Require Import Base Model_Names Model_Table Model_Heap.
Import ListNotations.
Local Open Scope string_scope.
Local Open Scope list_scope.

(** CircRefError, errors.go:22-26 *)
Record circ_ref := mkCR { RootTable : ref; CircTable : ref; cr_msg : string }.

(** An error value: one that is no CircRefError and wraps none (its text is not modelled),
    a CircRefError, or the error of fmt.Errorf("%s: %w", prefix, inner), which wraps. *)
Inductive error :=
| Other
| Circ (e : circ_ref)
| Wrap (prefix : string) (inner : error).

(** The text of an error: CircRefError.Error, errors.go:28-30, and that of fmt.Errorf.
    None: a text that is not modelled. *)
Fixpoint Error (e : error) : option string :=
  match e with
  | Other => None
  | Circ c => Some (cr_msg c)
  | Wrap prefix inner => match Error inner with Some s => Some (prefix ++ ": " ++ s)%string | None => None end
  end.

(** Table.Name, gotables.go:2235-2243 *)
Definition name_of (h : heap) (o : ref) : string := match o with None => "" | Some p => tname (tab h p) end.

(** NewCircRefError, errors.go:32-47 *)
Definition NewCircRefError (h : heap) (root circ : ref) (userMsg : string) : circ_ref :=
  if (userMsg =? "")%string then
    mkCR root circ ("CircRefError: circular reference in table [" ++ name_of h root ++ "]: a reference to table ["
                    ++ name_of h circ ++ "] already exists")
  else mkCR root circ ("CircRefError: " ++ userMsg).

(** GetCircRefError, errors.go:58-62: errors.As goes down the chain of wrapped errors.
    None is nil, both for the error and for the result. *)
Fixpoint as_circ (e : error) : option circ_ref :=
  match e with Other => None | Circ c => Some c | Wrap _ inner => as_circ inner end.
Definition GetCircRefError (e : option error) : option circ_ref := match e with None => None | Some e => as_circ e end.
(** HasCircRefError, errors.go:50-55 *)
Definition HasCircRefError (e : option error) : bool := match GetCircRefError e with Some _ => true | None => false end.

(** The visitCell of IsValidTableNesting, tree.go:335-364, as in Model_Heap but with the
    error that it returns; the captured variables are refMap and, for the model, that error.
    An error of GetTableByColIndex is returned as it is. *)
Definition nesting_visit_err (root : ptr) (info : cell_info) : W (list ptr * option error) unit :=
  if ci_type info =? "*Table" then
    do* t := wtab root in
    match GetTableByColIndex t (ci_col info) (ci_row info) with
    | Err => fun s => (mkW (w_heap s) (w_safe s) (fst (w_x s), Some Other), Err)
    | Panic => wlift Panic
    | Ok None => wlift Panic
    | Ok (Some q) => fun s =>
        if in_set q (fst (w_x s)) then
          (mkW (w_heap s) (w_safe s)
             (fst (w_x s), Some (Wrap "IsValidTableNesting()" (Circ (NewCircRefError (w_heap s) (Some root) (Some q) "")))), Err)
        else (mkW (w_heap s) (w_safe s) (q :: fst (w_x s), snd (w_x s)), Ok tt)
    end
  else wret tt.

(** The error of IsValidTableNesting, tree.go:317-374.  Errors of Walk itself are formatted
    with %s (tree.go:165), so they wrap nothing.  The error about parentTable (tree.go:328-331)
    is overwritten by that of Walk. *)
Definition IsValidTableNesting_err (h : heap) (root : ptr) : option error :=
  match Walk (walk_fuel h) true (fun _ => wret tt) (fun _ _ => wret tt) (nesting_visit_err root) root (mkW h [] ([root], None)) with
  | (_, Ok _) => None
  | (s, _) => Some (match snd (w_x s) with Some e => e | None => Other end)
  end.

(** The error of HasCircularReference, tree.go:298-312: the text of the other error with one
    word replaced, formatted with %s. *)
Definition HasCircularReference_err (h : heap) (root : ptr) : option error :=
  match IsValidTableNesting_err h root with None => None | Some _ => Some Other end.
(** The error of Copy and CopyCols for a table with a circular reference,
    gotables.go:3634-3640, 3675-3681 *)
Definition Copy_circ_err (h : heap) (root : ptr) : option error := HasCircularReference_err h root.
