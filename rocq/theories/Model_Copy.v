(** Model_Copy.v -- methods that read one table and build or extend another
    (gotables.go).  The table read from is given as a function [src] of the current
    contents of the receiver: [fun _ => t] when it is another table t, and the
    identity when it is the receiver itself. *)
From Coq Require Import ZArith NArith List String Ascii Bool SpecFloat.
From Verif Require Import Base Model_Names Model_Table Model_Sort.
Import ListNotations.
Local Open Scope string_scope.
Local Open Scope list_scope.

(** The result of building a table from NewNilTable with the computation m; addresses
    from [base] on are free.  The table is returned only when m succeeds. *)
Definition build (m : M unit) (base : nat) : res table :=
  match run m base NewNilTable with
  | (t, Ok _) => Ok t
  | (_, Err) => Err
  | (_, Panic) => Panic
  end.

(** GetColInfoAsTable, gotables.go:2073-2133 *)
Definition GetColInfoAsTable (t : table) : res table :=
  if is_nil t then Err
  else build (
    SetName "ColInfo" ;;;
    AppendCol "index" "int" ;;;
    AppendCol "colName" "string" ;;;
    AppendCol "colType" "string" ;;;
    mfor (zseq (List.length (cnames t))) (fun ci =>
      AppendRow ;;;
      SetT "int" "index" ci (VInt KInt ci) ;;;
      let* cn := lift (ColName t ci) in
      let* ct := lift (ColType t cn) in
      SetT "string" "colName" ci (VString cn) ;;;
      SetT "string" "colType" ci (VString ct))) 0.

(** GetColInfoAsSlices, gotables.go:2141-2169 *)
Definition GetColInfoAsSlices (t : table) : res (list string * list string) :=
  if is_nil t then Err
  else let! l := mapM (fun ci => let! cn := ColName t ci in let! ct := ColType t cn in Ok (cn, ct))
                      (zseq (List.length (cnames t))) in
       Ok (map fst l, map snd l).

(** [if err != nil { k }] *)
Definition on_err {A} (m k : M A) : M A :=
  fun s => match m s with (s', Err) => k s' | r => r end.

(** GetString *)
Definition GetString (t : table) (cn : string) (ri : Z) : res string :=
  let! v := GetT "string" t cn ri in match v with VString x => Ok x | _ => Panic end.

(** AppendColsFromTable, gotables.go:3444-3497 *)
Definition AppendColsFromTable (src : table -> table) : M unit :=
  let* t := get in
  check (negb (is_nil t)) ;;;
  let* ci := reads (fun t => GetColInfoAsTable (src t)) in
  mfor (zseq (List.length (rows ci))) (fun ri =>
    let* cn := lift (GetString ci "colName" ri) in
    let* ct := lift (GetString ci "colType" ri) in
    on_err (AppendCol cn ct)
      (let* has := reads (fun t => HasCol t cn) in
       check has ;;;
       let* ct' := reads (fun t => ColType t cn) in
       check (ct =? ct'))).

(** AppendRowsFromTable, gotables.go:3499-3593.  ColCount of the source is read
    once per row (it does not change during the loop). *)
Definition AppendRowsFromTable (src : table -> table) (first last : Z) : M unit :=
  let* t := get in
  check (negb (is_nil t)) ;;;
  check (negb (is_nil (src t))) ;;;
  mfor (zseq (Z.to_nat (last - first + 1))) (fun k =>
    AppendRow ;;;
    let* tk := get in
    mfor (zseq (List.length (cnames (src tk)))) (fun ci =>
      let* cn := reads (fun t => ColName (src t) ci) in
      let* v := reads (fun t => GetValByColIndex (src t) ci (first + k)) in
      SetVal cn (RowCount t + k) v)).

(** NewTableFromRows, gotables.go:3598-3618: the computation that builds the new table *)
Definition NewTableFromRows (t : table) (name : string) (first last : Z) : M unit :=
  SetName name ;;;
  AppendColsFromTable (fun _ => t) ;;;
  AppendRowsFromTable (fun _ => t) first last.

(** CopyCols and Copy after the nesting check, gotables.go:3625-3712 *)
Definition CopyCols_body (t : table) : M unit :=
  SetName (tname t) ;;;
  AppendColsFromTable (fun _ => t).
Definition Copy_body (t : table) : M unit :=
  SetName (tname t) ;;;
  AppendColsFromTable (fun _ => t) ;;;
  (if (RowCount t >? 0)%Z then AppendRowsFromTable (fun _ => t) 0 (RowCount t - 1) else ret tt).

(** NewTableFromRowsBySearchRange, gotables.go:3755-3770 *)
Definition NewTableFromRowsBySearchRange (E : env) (t : table) (name : string) (vs : list value) : M unit :=
  let* r := lift (SearchRange E t vs) in
  NewTableFromRows t name (fst r) (snd r).

(** NewTableReorderColsByColIndex, gotables.go:4081-4154 *)
Definition NewTableReorderColsByColIndex (t : table) (order : list Z) : M unit :=
  let n := List.length (cnames t) in
  check (Nat.eqb (List.length order) n) ;;;
  check (valid_order n order) ;;;
  SetName (tname t) ;;;
  AppendRows (RowCount t) ;;;
  mfor (combine (zseq n) order) (fun p =>
    let '(oldi, newi) := p in
    let* cn := lift (ColName t newi) in
    let* ct := lift (ColTypeByColIndex t newi) in
    AppendCol cn ct ;;;
    mfor (zseq (List.length (rows t))) (fun ri =>
      let* v := lift (cell t newi ri) in
      set_cell oldi ri v)).

(** NewTableReorderCols, gotables.go:4039-4074 *)
Definition NewTableReorderCols (t : table) (names : list string) : M unit :=
  check (Nat.eqb (List.length names) (List.length (cnames t))) ;;;
  let* order := lift (mapM (ColIndex t) names) in
  NewTableReorderColsByColIndex t order.
