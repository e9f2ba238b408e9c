(** Model_Nest.v -- Nest (nest.go), NewTreeTable (tree.go) and StringNested (gotables.go). *)
From Coq Require Import ZArith NArith List String Ascii Bool.
From Verif Require Import Base Model_Names Model_Table Model_Sort Model_Copy Model_Heap Model_Lex Model_Print Model_Json Model_Query.
Import ListNotations.
Local Open Scope string_scope.
Local Open Scope list_scope.

(** A question to the heap *)
Definition asks {A} (f : heap -> res A) : HM A := fun h => (h, f h).

(** ---------- Nest ---------- *)

(** The slice of key columns, nest.go:83-90 *)
Definition key_columns (t : table) : res (list string) :=
  let! kt := GetSortKeysAsTable t in
  mapM (fun ri => let! v := GetT "string" kt "colName" ri in
                  match v with VString c => Ok c | _ => Panic end) (zseq (List.length (rows kt))).

(** One turn of the loop, nest.go:103-127, in the table [p], for the rows of [q]; [cn] is both
    the column and the name of the new table, which is only printed *)
Definition nest_row (E : env) (ip : Z -> bool) (p q : ptr) (cn : string) (cols : list string) (ri : Z) : HM unit :=
  let^ keys := asks (fun h => mapM (fun c => GetVal (tab h p) c ri) cols) in
  let^ r := asks (fun h => SearchRange E (tab h q) keys) in
  let^ n := (fun h => new_tab (NewTableFromRows (tab h q) cn (fst r) (snd r)) h) in
  let^ s := asks (fun h => StringUnpadded ip h (tab h n)) in
  on_heap p (SetT "string" cn ri (VString s)).

(** Nest, nest.go:45-131.  RowCount is asked for in every turn, but no turn changes it. *)
Definition Nest (E : env) (ip : Z -> bool) (op oq : ref) (cn : string) : HM unit :=
  match op, oq with
  | Some p, Some q =>
      let^ n := asks (fun h => Ok (SortKeyCount (tab h p))) in
      let^ _ := (fun h => if (n =? 0)%Z then on_heap q (SetSortKeysFromTable (tab h p)) h else (h, Ok tt)) in
      let^ _ := (fun h => on_heap q (SetSortKeysFromTable (tab h p)) h) in
      let^ _ := on_heap p (Sort E []) in
      let^ _ := on_heap q (Sort E []) in
      let^ cols := asks (fun h => key_columns (tab h p)) in
      let^ _ := on_heap p (AppendCol cn "string") in
      let^ m := asks (fun h => Ok (List.length (rows (tab h p)))) in
      hfor (zseq m) (nest_row E ip p q cn cols)
  | _, _ => hlift Err
  end.

(** ---------- NewTreeTable ---------- *)

(** One cell of the loops of newTreeTable_recursive, tree.go:641-729; [deeper] is the recursive
    call.  The messages of CURRENT_TESTS_VERBOSE are left out. *)
Definition tree_cell (orig p : ptr) (deeper : ptr -> HM unit) (ri ci : Z) : HM unit :=
  let^ isTab := asks (fun h => IsTableColByColIndex (tab h p) ci) in
  if isTab : bool then
    let^ o := asks (fun h => GetTableByColIndex (tab h p) ci ri) in
    match o with
    | None => hlift Err                            (* IsNilTable of a nil pointer *)
    | Some q =>
        let^ isNil := asks (fun h => Ok (is_nil (tab h q))) in
        if isNil : bool then
          let^ cn := asks (fun h => ColName (tab h p) ci) in
          let^ c := Copy orig in
          let^ _ := SetTable p cn ri (Some c) in
          deeper q
        else hret tt
    end
  else hret tt.

(** newTreeTable_recursive, tree.go:612-736, for depth >= 0; neither RowCount nor ColCount of the table
    changes during the loops *)
Fixpoint newTreeTable_recursive (depth : nat) (orig p : ptr) : HM unit :=
  match depth with
  | O => hret tt
  | S d =>
      let^ t := asks (fun h => Ok (tab h p)) in
      hfor (zseq (List.length (rows t))) (fun ri =>
        hfor (zseq (List.length (cnames t))) (fun ci =>
          tree_cell orig p (newTreeTable_recursive d orig) ri ci))
  end.

(** NewTreeTable, tree.go:584-610 *)
Definition NewTreeTable (o : ref) (depth : Z) : HM ref :=
  match o with
  | None => hlift Err
  | Some p =>
      let^ c := Copy p in
      let^ _ := (if (depth <? 0)%Z then hlift Err else newTreeTable_recursive (Z.to_nat depth) p c) in
      hret (Some p)
  end.

(** ---------- StringNested ---------- *)

(** The cells with nested tables, column by column, gotables.go:4542-4546 *)
Definition table_cells (t : table) : list (Z * string * Z) :=
  List.concat (map (fun c => let '(ci, (cn, ct)) := c in
                        if IsTableColType ct then map (fun ri => (ci, cn, ri)) (zseq (List.length (rows t))) else [])
              (numbered (combine (cnames t) (ctypes t)))).

(** The new name of a nested table, gotables.go:4564-4571 (debug is true) *)
Definition tail_name (parent cn : string) (ri : Z) (tail : string) : string :=
  ("__FROM_TABLE_" ++ parent ++ "_COL_" ++ cn ++ "_row_" ++ dec_of ri ++ tail)%string.

(** The loops of stringNested_recursive, gotables.go:4541-4583: the text is collected in [acc];
    after an error the rest of this table is left out *)
Fixpoint nested_texts (rec : ptr -> string -> string -> HM string) (p : ptr) (parent tail : string)
    (cells : list (Z * string * Z)) (acc : string) : HM string :=
  match cells with
  | [] => hret acc
  | (ci, cn, ri) :: r => fun h =>
      match GetTableByColIndex (tab h p) ci ri with
      | Ok (Some q) =>
          let head := tname (tab h q) in
          let tail' := tail_name parent cn ri tail in
          match on_heap q (SetName (head ++ tail')%string) h with
          | (h1, Ok _) => (let^ s := rec q head tail' in nested_texts rec p parent tail r (acc ++ s)%string) h1
          | (h1, Err) => (h1, Ok acc)
          | (h1, Panic) => (h1, Panic)
          end
      | Ok None => (h, Ok acc)                     (* SetName of a nil pointer is an error *)
      | Err => (h, Ok acc)
      | Panic => (h, Panic)
      end
  end.

(** stringNested_recursive, gotables.go:4518-4588.  Without fuel (a circular reference) the Go
    stack overflows. *)
Fixpoint stringNested_recursive (fuel : nat) (ip : Z -> bool) (p : ptr) (parent tail : string) : HM string :=
  match fuel with
  | O => hlift Panic
  | S k =>
      let^ s := asks (fun h => StringPadded ip h (tab h p)) in
      let^ t := asks (fun h => Ok (tab h p)) in
      nested_texts (stringNested_recursive k ip) p parent tail (table_cells t) (s ++ newline)%string
  end.

(** StringNested, gotables.go:4485-4488; a nil table prints as "" *)
Definition StringNested (fuel : nat) (ip : Z -> bool) (o : ref) : HM string :=
  match o with
  | None => hret ""
  | Some p => fun h => stringNested_recursive fuel ip p (tname (tab h p)) "" h
  end.
