(** Model_Merge.v -- Merge and SortUnique on table contents (merge.go, sort.go). *)
From Coq Require Import ZArith NArith List String Ascii Bool SpecFloat.
From Verif Require Import Base Model_Names Model_Table Model_Sort Model_Copy.
Import ListNotations.
Local Open Scope string_scope.
Local Open Scope list_scope.

(** copyTableCells, merge.go:486-510: [src] is copied into the receiver from row [begin] on. *)
Definition copyTableCells (src : table) (begin : Z) : M unit :=
  mfor (zseq (List.length (cnames src))) (fun ci =>
    let* cn := lift (ColName src ci) in
    mfor (zseq (List.length (rows src))) (fun ri =>
      let* v := lift (GetValByColIndex src ci ri) in
      SetVal cn (begin + ri) v)).

(** Zero or not: val != zeroVal for each kind of column (merge.go:262-420).  Go's != on
    floats: NaN != 0 is true and -0 != 0 is false. *)
Definition nonzero (v : value) : bool :=
  match v with
  | VString s => negb (s =? "")
  | VBool b => b
  | VInt _ z => negb (z =? 0)%Z
  | VFloat32 (S754_zero _) | VFloat64 (S754_zero _) => false
  | _ => true
  end.
Definition is_nan_b (v : value) : bool :=
  match v with VFloat32 S754_nan | VFloat64 S754_nan => true | _ => false end.

(** The switch on colType, merge.go:259-424, for the cells of rows r1 and r1+1 in column ci.
    The typed getters and setters of the string and bool cases are GetTByColIndex and
    SetTByColIndex. *)
Definition merge_cell (ci r1 : Z) : M unit :=
  let r2 := (r1 + 1)%Z in
  let* ct := reads (fun t => ColTypeByColIndex t ci) in
  if (ct =? "string") || (ct =? "bool") then
    let* v1 := reads (fun t => GetTByColIndex ct t ci r1) in
    let* v2 := reads (fun t => GetTByColIndex ct t ci r2) in
    if nonzero v1 then SetTByColIndex ct ci r2 v1
    else if nonzero v2 then SetTByColIndex ct ci r1 v2
    else ret tt
  else if str_in ct ["int8"; "int16"; "int32"; "int64"; "int"; "uint8"; "uint16"; "uint32"; "uint64"; "uint"] then
    let* v1 := reads (fun t => GetValByColIndex t ci r1) in
    let* v2 := reads (fun t => GetValByColIndex t ci r2) in
    if nonzero v1 then SetValByColIndex ci r2 v1
    else if nonzero v2 then SetValByColIndex ci r1 v2
    else ret tt
  else if (ct =? "float32") || (ct =? "float64") then
    let* v1 := reads (fun t => GetValByColIndex t ci r1) in
    let* v2 := reads (fun t => GetValByColIndex t ci r2) in
    if nonzero v1 && negb (is_nan_b v1) then SetValByColIndex ci r2 v1
    else if nonzero v2 && negb (is_nan_b v2) then SetValByColIndex ci r1 v2
    else if is_nan_b v1 then SetValByColIndex ci r1 v2
    else if is_nan_b v2 then SetValByColIndex ci r2 v1
    else ret tt
  else fail.

(** The body of the loop over rows, merge.go:246-439 (tempColCount = 2). *)
Definition merge_row (E : env) (ri : Z) : M unit :=
  let* cmp := reads (fun t => CompareRows E t ri (ri + 1)) in
  if (cmp =? 0)%Z then
    let* t := get in
    mfor (zseq (Z.to_nat (ColCount t - 2))) (fun ci => merge_cell ci ri) ;;;
    SetT "bool" "_DELETE_" ri (VBool true)
  else ret tt.

(** Merge from the point where both tables are known to have rows and their keys have been
    made the same, merge.go:135-483: the computation that fills the new table. *)
Definition merge_body (E : env) (t1 t2 : table) : M unit :=
  SetName "Merged" ;;;
  AppendColsFromTable (fun _ => t1) ;;;
  AppendColsFromTable (fun _ => t2) ;;;
  SetSortKeysFromTable t1 ;;;
  OrderColsBySortKeys ;;;
  AppendCol "_TABLE_" "int" ;;;
  AppendRows (RowCount t1 + RowCount t2) ;;;
  SetAllFloatCellsToNaN ;;;
  copyTableCells t1 0 ;;;
  mfor (zseq (List.length (rows t1))) (fun ri => SetT "int" "_TABLE_" ri (VInt KInt 1)) ;;;
  copyTableCells t2 (RowCount t1) ;;;
  let* t := get in
  mfor (zseq (Z.to_nat (RowCount t - RowCount t1))) (fun k =>
    SetT "int" "_TABLE_" (RowCount t1 + k) (VInt KInt 2)) ;;;
  AppendSortKey "_TABLE_" ;;;
  Sort E [] ;;;
  DeleteSortKey "_TABLE_" ;;;
  AppendCol "_DELETE_" "bool" ;;;
  let* t := get in
  mfor (zseq (Z.to_nat (RowCount t - 1))) (merge_row E) ;;;
  SetSortKeys ["_DELETE_"] ;;;
  Sort E [] ;;;
  let* fl := reads (fun t => SearchRange E t [VBool true]) in
  DeleteRows (fst fl) (snd fl) ;;;
  DeleteCol "_DELETE_" ;;;
  DeleteCol "_TABLE_" ;;;
  SetSortKeysFromTable t1 ;;;
  Sort E [].
