(** Model_Heap.v -- tables at addresses, nesting, Walk, Copy, Equals, IsValidTable
    (gotables.go, tree.go). *)
From Coq Require Import ZArith NArith List String Ascii Bool SpecFloat.
From Verif Require Import Base Model_Names Model_Table Model_Sort Model_Copy Model_Merge Model_Ops.
Import ListNotations.
Local Open Scope string_scope.
Local Open Scope list_scope.

(** The tables that exist; the address of a table is its position. *)
Definition heap := list table.
(** A *Table variable of the caller: nil or an address. *)
Definition ref := option ptr.

(** The NilTables that a method of the table at [p] has allocated. *)
Definition new_nils (p : ptr) (l : list bool) : heap :=
  map (fun b : bool => with_parent (if b then Some p else None) NewNilTable) l.

(** Call the method [m] of the table at [p]. *)
Definition on_heap {A} (p : ptr) (m : M A) (h : heap) : heap * res A :=
  match nth_error h p with
  | None => (h, Panic)
  | Some t => let '(s, r) := m (mkS t (List.length h) []) in
              (upd h p (s_tab s) ++ new_nils p (s_news s), r)
  end.

(** Build a new table with [m].  Tables made by a failing call are garbage. *)
Definition new_tab (m : M unit) (h : heap) : heap * res ptr :=
  let p := List.length h in
  let '(s, r) := m (mkS NewNilTable (S p) []) in
  match r with
  | Ok _ => (h ++ s_tab s :: new_nils p (s_news s), Ok p)
  | Err => (h, Err)
  | Panic => (h, Panic)
  end.

Definition tab (h : heap) (p : ptr) : table := nth p h NewNilTable.

(** ---------- Walk ---------- *)

(** State of a walk: the tables, the walkSafe set, and the variables captured by the
    visitor functions. *)
Record wst (X : Type) := mkW { w_heap : heap; w_safe : list ptr; w_x : X }.
Arguments mkW {X}. Arguments w_heap {X}. Arguments w_safe {X}. Arguments w_x {X}.
Definition W (X A : Type) := wst X -> wst X * res A.
Definition wret {X A} (a : A) : W X A := fun s => (s, Ok a).
Definition wlift {X A} (r : res A) : W X A := fun s => (s, r).
Definition wbind {X A B} (m : W X A) (f : A -> W X B) : W X B :=
  fun s => match m s with
           | (s', Ok a) => f a s'
           | (s', Err) => (s', Err)
           | (s', Panic) => (s', Panic)
           end.
Notation "'do*' x ':=' m 'in' k" := (wbind m (fun x => k))
  (at level 200, x pattern, m at level 100, k at level 200, right associativity).
Definition wtab {X} (p : ptr) : W X table := fun s => (s, Ok (tab (w_heap s) p)).
Fixpoint wfor {X A} (l : list A) (body : A -> W X unit) : W X unit :=
  match l with
  | [] => wret tt
  | x :: r => do* _ := body x in wfor r body
  end.

(** CellInfo, tree.go *)
Record cell_info := mkCI { ci_tab : ptr; ci_name : string; ci_type : string; ci_col : Z; ci_row : Z }.

(** GetCellInfoByColIndex, tree.go:216-233 ([colTypes[colIndex]] is unchecked) *)
Definition GetCellInfoByColIndex (p : ptr) (t : table) (ci ri : Z) : res cell_info :=
  match znth (ctypes t) ci with
  | None => Panic
  | Some ct => let! cn := ColName t ci in Ok (mkCI p cn ct ci ri)
  end.
(** GetCellInfo, tree.go:257-275 *)
Definition GetCellInfo (p : ptr) (t : table) (cn : string) (ri : Z) : res cell_info :=
  let! ci := ColIndex t cn in GetCellInfoByColIndex p t ci ri.

(** GetTableByColIndex: a pointer, possibly nil *)
Definition GetTableByColIndex (t : table) (ci ri : Z) : res ref :=
  let! v := GetTByColIndex "*Table" t ci ri in
  match v with VTable o => Ok o | _ => Panic end.

Definition in_set (p : ptr) (l : list ptr) : bool := existsb (Nat.eqb p) l.

(** Table.Walk, tree.go:75-194.  A nil visitor is one that does nothing.  [fuel] bounds the
    depth of the recursion; running out of it stands for the stack overflow of an endless
    Go recursion and is a Panic.  Simplification: the numbers of rows and columns of a
    table are read when its loops start. *)
Fixpoint Walk {X} (fuel : nat) (nested : bool)
    (visitTable : ptr -> W X unit) (visitRow : ptr -> Z -> W X unit)
    (visitCell : cell_info -> W X unit) (p : ptr) : W X unit :=
  match fuel with
  | O => wlift Panic
  | S fuel' =>
      do* _ := visitTable p in
      do* t := wtab p in
      wfor (zseq (List.length (rows t))) (fun ri =>
        do* _ := visitRow p ri in
        do* t := wtab p in
        wfor (zseq (List.length (cnames t))) (fun ci =>
          do* t := wtab p in
          do* info := wlift (GetCellInfoByColIndex p t ci ri) in
          do* _ := visitCell info in
          if nested && (ci_type info =? "*Table") then
            do* t := wtab p in
            do* o := wlift (GetTableByColIndex t ci ri) in
            match o with
            | None => wlift Err
            | Some q =>
                do* tq := wtab q in
                do* _ := (if is_nil tq then wret tt
                          else fun s => if in_set q (w_safe s) then (s, Err)
                                        else (mkW (w_heap s) (q :: w_safe s) (w_x s), Ok tt)) in
                Walk fuel' nested visitTable visitRow visitCell q
            end
          else wret tt))
  end.

(** Depth of recursion that is always enough when the visitors create no tables: every
    nested table that is not a NilTable is entered at most once. *)
Definition walk_fuel (h : heap) : nat := S (S (List.length h)).

(** TableSet.Walk, tree.go:24-60, on the list of tables of the set (nil tables give an
    error): a new walkSafe for each table. *)
Fixpoint walk_tables {X} (fuel : nat) (nested : bool)
    (visitTable : ptr -> W X unit) (visitRow : ptr -> Z -> W X unit)
    (visitCell : cell_info -> W X unit) (ts : list ref) : W X unit :=
  match ts with
  | [] => wret tt
  | None :: _ => wlift Err
  | Some p :: r =>
      do* _ := (fun s => (mkW (w_heap s) [] (w_x s), Ok tt)) in
      do* _ := Walk fuel nested visitTable visitRow visitCell p in
      walk_tables fuel nested visitTable visitRow visitCell r
  end.

(** The visitCell of IsValidTableNesting, tree.go:335-364; the captured variable is
    refMap.  The nested table is looked up in the root table, not in the table of the
    visited cell.  The errors about parentTable are overwritten and have no effect; a nil
    nested pointer would be dereferenced. *)
Definition nesting_visit (root : ptr) (info : cell_info) : W (list ptr) unit :=
  if ci_type info =? "*Table" then
    do* t := wtab root in
    do* o := wlift (GetTableByColIndex t (ci_col info) (ci_row info)) in
    match o with
    | None => wlift Panic
    | Some q => fun s => if in_set q (w_x s) then (s, Err)
                         else (mkW (w_heap s) (w_safe s) (q :: w_x s), Ok tt)
    end
  else wret tt.

(** IsValidTableNesting, tree.go:317-374: Ok tt is (true, nil), Err is (false, err) *)
Definition IsValidTableNesting (h : heap) (root : ptr) : res unit :=
  snd (Walk (walk_fuel h) true (fun _ => wret tt) (fun _ _ => wret tt) (nesting_visit root) root
            (mkW h [] [root])).

(** HasCircularReference, tree.go:298-312: Ok true is (true, err) *)
Definition HasCircularReference (h : heap) (root : ptr) : res bool :=
  match IsValidTableNesting h root with Ok _ => Ok false | Err => Ok true | Panic => Panic end.

(** ---------- Copy, CopyDeep ---------- *)

(** Copy and CopyCols, gotables.go:3625-3712 *)
Definition Copy (p : ptr) (h : heap) : heap * res ptr :=
  match HasCircularReference h p with
  | Ok false => new_tab (Copy_body (tab h p)) h
  | Ok true => (h, Err)
  | Err => (h, Err)
  | Panic => (h, Panic)
  end.
Definition CopyCols (p : ptr) (h : heap) : heap * res ptr :=
  match HasCircularReference h p with
  | Ok false => new_tab (CopyCols_body (tab h p)) h
  | Ok true => (h, Err)
  | Err => (h, Err)
  | Panic => (h, Panic)
  end.

Definition set_parent (q : ptr) (p : ptr) (h : heap) : heap :=
  upd h q (with_parent (Some p) (tab h q)).

(** SetTable, helpers.go:853-902, and SetTableByColIndex, helpers.go:1596-1637: the parent
    of the new nested table is set before the other checks. *)
Definition SetTable (p : ptr) (cn : string) (ri : Z) (o : ref) (h : heap) : heap * res unit :=
  match o with
  | None => (h, Err)
  | Some q => on_heap p (SetT "*Table" cn ri (VTable (Some q))) (set_parent q p h)
  end.
Definition SetTableByColIndex (p : ptr) (ci ri : Z) (o : ref) (h : heap) : heap * res unit :=
  match o with
  | None => (h, Err)
  | Some q => on_heap p (SetTByColIndex "*Table" ci ri (VTable (Some q))) (set_parent q p h)
  end.

(** Run a heap operation inside a walk. *)
Definition wheap {X A} (f : heap -> heap * res A) : W X A :=
  fun s => let '(h', r) := f (w_heap s) in (mkW h' (w_safe s) (w_x s), r).

(** The visitCell of CopyDeep, tree.go:420-455; the captured variable is tableCopy. *)
Definition copydeep_visit (info : cell_info) : W ptr unit :=
  do* _ :=
    (if ci_type info =? "*Table" then
      do* t := wtab (ci_tab info) in
      do* o := wlift (GetTableByColIndex t (ci_col info) (ci_row info)) in
      match o with
      | None => wlift Err
      | Some q =>
          do* tq := wtab q in
          do* q' := (if is_nil tq then wheap (fun h => new_tab (ret tt) h) else wheap (Copy q)) in
          wheap (SetTableByColIndex (ci_tab info) (ci_col info) (ci_row info) (Some q'))
      end
    else wret tt) in
  fun s => (mkW (w_heap s) (w_safe s) (ci_tab info), Ok tt).

(** CopyDeep, tree.go:403-467, with a given bound on the recursion depth *)
Definition CopyDeep (fuel : nat) (p : ptr) (h : heap) : heap * res ptr :=
  let '(s, r) := Walk fuel true (fun _ => wret tt) (fun _ _ => wret tt) copydeep_visit p (mkW h [] p) in
  match r with
  | Ok _ => (w_heap s, Ok (w_x s))
  | Err => (w_heap s, Err)
  | Panic => (w_heap s, Panic)
  end.

(** ---------- Equals ---------- *)

(** Go == on floats *)
Definition float_eqb (a b : spec_float) : bool :=
  match SFcompare a b with Some Eq => true | _ => false end.
(** Go == on two interface values of comparable dynamic type: same type and same value *)
Definition iface_eqb (v w : value) : bool :=
  match v, w with
  | VNil, VNil => true
  | VBool a, VBool b => Bool.eqb a b
  | VString a, VString b => a =? b
  | VInt k a, VInt k' b => ikind_eqb k k' && (a =? b)%Z
  | VFloat32 a, VFloat32 b => float_eqb a b
  | VFloat64 a, VFloat64 b => float_eqb a b
  | VTable (Some p), VTable (Some q) => Nat.eqb p q
  | VTable None, VTable None => true
  | _, _ => false
  end.
Definition bytes_of (o : option (list ascii)) : list ascii := match o with Some l => l | None => [] end.
Fixpoint bytes_eqb (a b : list ascii) : bool :=
  match a, b with
  | [], [] => true
  | x :: a', y :: b' => Ascii.eqb x y && bytes_eqb a' b'
  | _, _ => false
  end.
(** time.Time.Equal: the same instant *)
Definition time_eqb (a b : time) : bool := ((tm_sec a =? tm_sec b) && (tm_nsec a =? tm_nsec b))%Z.

Definition rcheck (b : bool) : res unit := if b then Ok tt else Err.
Fixpoint rfor {A} (l : list A) (body : A -> res unit) : res unit :=
  match l with
  | [] => Ok tt
  | x :: r => let! _ := body x in rfor r body
  end.

(** The loop over the columns comparing names and types, gotables.go:3319-3346 *)
Definition equal_cols (t1 t2 : table) : res unit :=
  rfor (zseq (List.length (cnames t1))) (fun ci =>
    let! cn := ColName t1 ci in
    let! ct1 := ColTypeByColIndex t1 ci in
    let! ct2 := ColType t2 cn in
    rcheck (ct1 =? ct2)).

(** The comparison of one cell, gotables.go:3365-3431; [nested] compares nested tables,
    the second of which is taken from t2 at t1's column index. *)
Definition equal_cell (nested : ref -> ref -> res unit) (t1 t2 : table) (cn ct : string) (ci ri : Z) : res unit :=
  let! v1 := GetValByColIndex t1 ci ri in
  let! v2 := GetVal t2 cn ri in
  if (ct =? "[]byte") || (ct =? "[]uint8") then
    match v1, v2 with
    | VBytes a, VBytes b => rcheck (bytes_eqb (bytes_of a) (bytes_of b))
    | _, _ => Panic
    end
  else if ct =? "*Table" then
    let! o1 := GetTableByColIndex t1 ci ri in
    let! o2 := GetTableByColIndex t2 ci ri in
    nested o1 o2
  else if ct =? "time.Time" then
    match v1, v2 with
    | VTime a, VTime b => rcheck (time_eqb a b)
    | _, _ => Panic
    end
  else rcheck (iface_eqb v1 v2).

(** Equals, gotables.go:3273-3437: Ok tt is (true, nil), Err is (false, err).  [fuel] bounds
    the depth of the recursion into nested tables; a nil table is an error. *)
Fixpoint Equals (fuel : nat) (h : heap) (o1 o2 : ref) : res unit :=
  match fuel, o1, o2 with
  | O, _, _ => Panic
  | S fuel', Some p1, Some p2 =>
      let t1 := tab h p1 in
      let t2 := tab h p2 in
      let! _ := rcheck (Bool.eqb (is_nil t1) (is_nil t2)) in
      let! _ := rcheck (tname t1 =? tname t2) in
      let! _ := rcheck (RowCount t1 =? RowCount t2)%Z in
      let! _ := rcheck (ColCount t1 =? ColCount t2)%Z in
      let! _ := equal_cols t1 t2 in
      rfor (zseq (List.length (cnames t1))) (fun ci =>
        let! cn := ColName t1 ci in
        let! ct := ColTypeByColIndex t1 ci in
        rfor (zseq (List.length (rows t1))) (fun ri =>
          equal_cell (Equals fuel' h) t1 t2 cn ct ci ri))
  | S _, _, _ => Err
  end.

(** ---------- IsValidTable ---------- *)

(** What IsValidTable returns: (true, nil), (false, err) or (false, nil). *)
Inductive verdict := Valid | Invalid | InvalidNoError | VPanic.

(** len of a Go map *)
Definition map_len (m : smap) : nat := List.length (nodup string_dec (map fst m)).

(** isValidColNamesMap, gotables.go:2854-2867; a missing key reads as 0 *)
Definition isValidColNamesMap (t : table) : res unit :=
  rfor (zseq (map_len (cmap t))) (fun ci =>
    match znth (cnames t) ci with
    | None => Panic
    | Some n => rcheck (Z.of_nat (mgetd (cmap t) n) =? ci)%Z
    end).

(** IsValidRow, gotables.go:2707-2728 *)
Definition IsValidRow (t : table) (ri : Z) : res unit :=
  if negb (HasRow t ri) then Err
  else match znth (rows t) ri with
       | None => Panic
       | Some row => rcheck (Nat.eqb (List.length row) (List.length (cnames t)))
       end.

(** IsValidTable, gotables.go:2739-2843.  The nil checks on the slices cannot fail on
    tables made by the constructors and are left out. *)
Definition IsValidTable (h : heap) (p : ptr) : verdict :=
  let t := tab h p in
  if tname t =? "" then Invalid
  else if negb (IsValidTableName (tname t)) then Invalid
  else if negb (forallb IsValidColName (cnames t)) then Invalid
  else if negb (forallb IsValidColType (ctypes t)) then Invalid
  else if negb (Nat.eqb (List.length (ctypes t)) (List.length (cnames t))) then Invalid
  else if negb (Nat.eqb (map_len (cmap t)) (List.length (cnames t))) then Invalid
  else match isValidColNamesMap t with
  | Panic => VPanic
  | Err => InvalidNoError
  | Ok _ =>
      match rfor (zseq (List.length (rows t))) (IsValidRow t) with
      | Panic => VPanic
      | Err => Invalid
      | Ok _ =>
          match IsValidTableNesting h p with
          | Panic => VPanic
          | Err => Invalid
          | Ok _ =>
              if forallb (fun k => IsValidColName (k_col k) && IsValidColType (k_type k)
                                   && str_in (k_type k) sortable_types) (skeys t)
              then Valid else Invalid
          end
      end
  end.

(** ---------- Merge and SortUnique on the heap ---------- *)

(** setSortKeysBetweenTables, merge.go:62-80 *)
Definition setSortKeysBetweenTables (p1 p2 : ptr) (h : heap) : heap * res unit :=
  if (SortKeyCount (tab h p1) >? 0)%Z then on_heap p2 (SetSortKeysFromTable (tab h p1)) h
  else if (SortKeyCount (tab h p2) >? 0)%Z then on_heap p1 (SetSortKeysFromTable (tab h p2)) h
  else (h, Err).

(** sortMerged, merge.go:83-97 *)
Definition sortMerged (E : env) (p1 p2 p : ptr) (h : heap) : heap * res unit :=
  let '(h1, r) := if (SortKeyCount (tab h p) =? 0)%Z then setSortKeysBetweenTables p1 p2 h else (h, Ok tt) in
  match r with
  | Ok _ => on_heap p (Sort E []) h1
  | _ => (h1, r)
  end.

(** Merge, merge.go:58-483 *)
Definition Merge (E : env) (p1 p2 : ptr) (h : heap) : heap * res ptr :=
  if (RowCount (tab h p1) =? 0)%Z then
    let '(h1, r) := sortMerged E p1 p2 p2 h in (h1, let! _ := r in Ok p2)
  else if (RowCount (tab h p2) =? 0)%Z then
    let '(h1, r) := sortMerged E p1 p2 p1 h in (h1, let! _ := r in Ok p1)
  else
    let '(h1, r) := setSortKeysBetweenTables p1 p2 h in
    match r with
    | Ok _ => new_tab (merge_body E (tab h1 p1) (tab h1 p2)) h1
    | Err => (h1, Err)
    | Panic => (h1, Panic)
    end.

(** SortUnique, sort.go:1260-1292 *)
Definition SortUnique (E : env) (p : ptr) (cols : list string) (h : heap) : heap * res ptr :=
  let '(h1, r) := if Nat.ltb 0 (List.length cols) then on_heap p (SetSortKeys cols) h else (h, Ok tt) in
  match r with
  | Ok _ =>
      if Nat.eqb (List.length (skeys (tab h1 p))) 0 then (h1, Err)
      else
        let '(h2, r2) := Merge E p p h1 in
        match r2 with
        | Ok q => let '(h3, r3) := on_heap q (SetName (tname (tab h2 p))) h2 in (h3, let! _ := r3 in Ok q)
        | _ => (h2, r2)
        end
  | Err => (h1, Err)
  | Panic => (h1, Panic)
  end.

(** ---------- histories over several tables ---------- *)

(** The calls of a program that works with several tables.  Receivers and table arguments
    are references, possibly nil. *)
Inductive hop :=
| HTab (o : ref) (c : op)
| HNewTable (n : string)
| HNewNilTable
| HNewTableFromMetadata (n : string) (cns cts : list string)
| HAppendRowsFromTable (o from : ref) (first last : Z)
| HAppendColsFromTable (o from : ref)
| HSetSortKeysFromTable (o from : ref)
| HNewTableFromRows (from : ref) (n : string) (first last : Z)
| HNewTableFromRowsBySearchRange (from : ref) (n : string) (vs : list value)
| HNewTableReorderCols (from : ref) (names : list string)
| HNewTableReorderColsByColIndex (from : ref) (order : list Z)
| HGetColInfoAsTable (from : ref)
| HGetSortKeysAsTable (from : ref)
| HCopy (from : ref)
| HCopyCols (from : ref)
| HMerge (o1 o2 : ref)
| HSortUnique (o : ref) (cols : list string)
| HCopyDeep (fuel : nat) (o : ref).

(** The contents of the table [q] as seen by a method that is changing the table [p]. *)
Definition seen_from (h : heap) (p q : ptr) : table -> table :=
  if Nat.eqb p q then (fun t => t) else (fun _ => tab h q).

Definition new_val (r : res table) (h : heap) : heap * res ref :=
  match r with
  | Ok t => (h ++ [t], Ok (Some (List.length h)))
  | Err => (h, Err)
  | Panic => (h, Panic)
  end.
Definition newly (x : heap * res ptr) : heap * res ref := (fst x, let! p := snd x in Ok (Some p)).
Definition nothing (x : heap * res unit) : heap * res ref := (fst x, let! _ := snd x in Ok None).

(** One call; the result is the table that the call returns, if any.  A nil receiver or
    table argument is an error in all of these methods. *)
Definition hexec (E : env) (c : hop) (h : heap) : heap * res ref :=
  match c with
  | HTab (Some p) (OSet vt cn ri (VTable (Some q))) =>
      nothing (on_heap p (SetT vt cn ri (VTable (Some q))) (set_parent q p h))
  | HTab (Some p) (OSetByColIndex vt ci ri (VTable (Some q))) =>
      nothing (on_heap p (SetTByColIndex vt ci ri (VTable (Some q))) (set_parent q p h))
  | HTab (Some p) c => nothing (on_heap p (exec E c) h)
  | HNewTable n => newly (new_tab (SetName n) h)
  | HNewNilTable => newly (new_tab (ret tt) h)
  | HNewTableFromMetadata n cns cts =>
      newly (new_tab (check (Nat.eqb (List.length cns) (List.length cts)) ;;; SetName n ;;; appendCols cns cts) h)
  | HAppendRowsFromTable (Some p) (Some q) f l => nothing (on_heap p (AppendRowsFromTable (seen_from h p q) f l) h)
  | HAppendColsFromTable (Some p) (Some q) => nothing (on_heap p (AppendColsFromTable (seen_from h p q)) h)
  | HSetSortKeysFromTable (Some p) (Some q) => nothing (on_heap p (SetSortKeysFromTable (tab h q)) h)
  | HNewTableFromRows (Some q) n f l => newly (new_tab (NewTableFromRows (tab h q) n f l) h)
  | HNewTableFromRowsBySearchRange (Some q) n vs => newly (new_tab (NewTableFromRowsBySearchRange E (tab h q) n vs) h)
  | HNewTableReorderCols (Some q) ns => newly (new_tab (NewTableReorderCols (tab h q) ns) h)
  | HNewTableReorderColsByColIndex (Some q) order => newly (new_tab (NewTableReorderColsByColIndex (tab h q) order) h)
  | HGetColInfoAsTable (Some q) => new_val (GetColInfoAsTable (tab h q)) h
  | HGetSortKeysAsTable (Some q) => new_val (GetSortKeysAsTable (tab h q)) h
  | HCopy (Some q) => newly (Copy q h)
  | HCopyCols (Some q) => newly (CopyCols q h)
  | HMerge (Some p1) (Some p2) => newly (Merge E p1 p2 h)
  | HSortUnique (Some p) cols => newly (SortUnique E p cols h)
  | HCopyDeep fuel (Some p) => newly (CopyDeep fuel p h)
  | _ => (h, Err)
  end.

(** References in a program point to tables that exist, and arguments are well typed. *)
Definition ref_in (h : heap) (o : ref) : bool := match o with Some p => Nat.ltb p (List.length h) | None => true end.
(** A slice has fewer than 2^63 elements, so its positions are ints. *)
Definition int_len {A} (l : list A) : bool := (Z.of_nat (List.length l) <? 2 ^ 63)%Z.
Definition hop_typed (h : heap) (c : hop) : bool :=
  match c with
  | HTab o c => ref_in h o && op_typed (List.length h) c
  | HNewTable _ | HNewNilTable | HNewTableFromMetadata _ _ _ => true
  | HAppendRowsFromTable o q _ _ | HAppendColsFromTable o q | HSetSortKeysFromTable o q => ref_in h o && ref_in h q
  | HNewTableFromRows q _ _ _ | HNewTableFromRowsBySearchRange q _ _ | HNewTableReorderCols q _
  | HNewTableReorderColsByColIndex q _
  | HCopy q | HCopyCols q | HSortUnique q _ | HCopyDeep _ q => ref_in h q
  | HGetColInfoAsTable q => ref_in h q && match q with Some p => int_len (cnames (tab h p)) | None => true end
  | HGetSortKeysAsTable q => ref_in h q && match q with Some p => int_len (skeys (tab h p)) | None => true end
  | HMerge p q => ref_in h p && ref_in h q
  end.
