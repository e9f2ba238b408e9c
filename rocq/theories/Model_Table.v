(** Model_Table.v -- the Table type and its single-table methods
    (gotables.go, helpers.go).

    A method with a *Table receiver is a computation in the monad [M]: it runs
    on the receiver's contents and on a supply of fresh addresses (for the
    NilTables that zero values of "*Table" columns allocate), and returns the
    new contents together with the outcome, also when the outcome is an error
    or a panic.  Receivers are non-nil here; nil receivers return errors in the
    Go code and are dealt with in the heap model. *)
From Coq Require Import ZArith NArith List String Ascii Bool SpecFloat.
From Verif Require Import Base Model_Names.
Import ListNotations.
Local Open Scope string_scope.
Local Open Scope list_scope.

(** sortKey, sort.go:55-60.  The field sortFunc is always compareFuncs[colType]
    of the stored colType, so it is not a separate field. *)
Record skey := mkKey { k_col : string; k_type : string; k_rev : bool }.

(** Table, gotables.go:490-501.  Simplifications: slices are lists (no spare
    capacity), the internal field [depth] (used only by Walk as a counter that
    is restored) is omitted. *)
Record table := mkT {
  tname : string;
  cnames : list string;
  ctypes : list string;
  cmap : smap;
  rows : list (list value);
  skeys : list skey;
  struct_shape : bool;
  is_nil : bool;
  parent : option ptr }.

Definition with_name n t := mkT n (cnames t) (ctypes t) (cmap t) (rows t) (skeys t) (struct_shape t) (is_nil t) (parent t).
Definition with_cols ns ts m t := mkT (tname t) ns ts m (rows t) (skeys t) (struct_shape t) (is_nil t) (parent t).
Definition with_rows rs t := mkT (tname t) (cnames t) (ctypes t) (cmap t) rs (skeys t) (struct_shape t) (is_nil t) (parent t).
Definition with_skeys ks t := mkT (tname t) (cnames t) (ctypes t) (cmap t) (rows t) ks (struct_shape t) (is_nil t) (parent t).
Definition with_shape b t := mkT (tname t) (cnames t) (ctypes t) (cmap t) (rows t) (skeys t) b (is_nil t) (parent t).
Definition with_nil b t := mkT (tname t) (cnames t) (ctypes t) (cmap t) (rows t) (skeys t) (struct_shape t) b (parent t).
Definition with_parent p t := mkT (tname t) (cnames t) (ctypes t) (cmap t) (rows t) (skeys t) (struct_shape t) (is_nil t) p.

(** State of a method call: receiver contents, first free address, and the
    NilTables allocated so far (true: its parentTable is set to the receiver). *)
Record st := mkS { s_tab : table; s_base : nat; s_news : list bool }.
Definition on_tab (f : table -> table) (s : st) : st := mkS (f (s_tab s)) (s_base s) (s_news s).

Definition M (A : Type) := st -> st * res A.
Definition ret {A} (a : A) : M A := fun s => (s, Ok a).
Definition fail {A} : M A := fun s => (s, Err).
Definition crash {A} : M A := fun s => (s, Panic).
Definition bind {A B} (m : M A) (f : A -> M B) : M B :=
  fun s => match m s with
           | (s', Ok a) => f a s'
           | (s', Err) => (s', Err)
           | (s', Panic) => (s', Panic)
           end.
Notation "'let*' x ':=' m 'in' k" := (bind m (fun x => k))
  (at level 200, x pattern, m at level 100, k at level 200, right associativity).
Notation "m ;;; k" := (bind m (fun _ => k)) (at level 199, right associativity).

Definition get : M table := fun s => (s, Ok (s_tab s)).
Definition modify (f : table -> table) : M unit := fun s => (on_tab f s, Ok tt).
(** Run a read-only function on the receiver. *)
Definition reads {A} (f : table -> res A) : M A := fun s => (s, f (s_tab s)).
Definition lift {A} (r : res A) : M A := fun s => (s, r).
Definition check (b : bool) : M unit := if b then ret tt else fail.
(** NewNilTable() inside a method: a fresh address. *)
Definition alloc (setparent : bool) : M ptr :=
  fun s => (mkS (s_tab s) (s_base s) (s_news s ++ [setparent]), Ok (s_base s + List.length (s_news s))%nat).

(** for _, x := range l { body } with errors and panics leaving the loop. *)
Fixpoint mfor {A} (l : list A) (body : A -> M unit) : M unit :=
  match l with
  | [] => ret tt
  | x :: r => body x ;;; mfor r body
  end.

(** The API view of a method: contents in, contents and outcome out. *)
Definition run {A} (m : M A) (base : nat) (t : table) : table * res A :=
  let '(s, r) := m (mkS t base []) in (s_tab s, r).

(** ---------- constructors and simple queries ---------- *)

(** NewNilTable, gotables.go:555-566 *)
Definition NewNilTable : table := mkT "" [] [] [] [] [] false true None.

(** Name, ColCount, RowCount: gotables.go:2235, 2245, 2261 *)
Definition Name (t : table) : string := tname t.
Definition ColCount (t : table) : Z := Z.of_nat (List.length (cnames t)).
Definition RowCount (t : table) : Z := Z.of_nat (List.length (rows t)).

(** HasRow, gotables.go:2469-2486 *)
Definition HasRow (t : table) (ri : Z) : bool :=
  negb ((ri <? 0) || (ri >? RowCount t - 1))%Z.
(** HasColByColIndex, gotables.go:2040-2054 *)
Definition HasColByColIndex (t : table) (ci : Z) : bool :=
  negb ((ci <? 0) || (ci >? ColCount t - 1))%Z.
(** getColInfo / HasCol / ColType, gotables.go:2056-2071, 2025-2037, 2171-2183:
    lookup in the map, then index colTypes (panics if out of range). *)
Definition ColType (t : table) (cn : string) : res string :=
  match mget (cmap t) cn with
  | None => Err
  | Some i => match nth_error (ctypes t) i with Some ct => Ok ct | None => Panic end
  end.
Definition HasCol (t : table) (cn : string) : res bool :=
  match ColType t cn with Ok _ => Ok true | Err => Ok false | Panic => Panic end.
(** ColTypeByColIndex, gotables.go:2185-2198 *)
Definition ColTypeByColIndex (t : table) (ci : Z) : res string :=
  if ((ci <? 0) || (ci >? Z.of_nat (List.length (ctypes t)) - 1))%Z then Err
  else match znth (ctypes t) ci with Some ct => Ok ct | None => Panic end.
(** ColIndex, gotables.go:2200-2212 *)
Definition ColIndex (t : table) (cn : string) : res Z :=
  match mget (cmap t) cn with Some i => Ok (Z.of_nat i) | None => Err end.
(** ColName / ColNameByColIndex, gotables.go:2683-2701 *)
Definition ColName (t : table) (ci : Z) : res string :=
  if ((ci <? 0) || (ci >? ColCount t - 1))%Z then Err
  else match znth (cnames t) ci with Some n => Ok n | None => Panic end.

(** [table.rows[ri][ci]], Go indexing (panics out of range). *)
Definition cell (t : table) (ci ri : Z) : res value :=
  match znth (rows t) ri with
  | Some row => match znth row ci with Some v => Ok v | None => Panic end
  | None => Panic
  end.

(** [table.rows[ri][ci] = v], Go indexing (panics out of range). *)
Definition set_cell (ci ri : Z) (v : value) : M unit :=
  fun s =>
    let t := s_tab s in
    match zidx ri (List.length (rows t)) with
    | Some r =>
        match nth_error (rows t) r with
        | Some row =>
            match zidx ci (List.length row) with
            | Some c => (on_tab (with_rows (upd (rows t) r (upd row c v))) s, Ok tt)
            | None => (s, Panic)
            end
        | None => (s, Panic)
        end
    | None => (s, Panic)
    end.

(** SetName / RenameTable, gotables.go:2547-2563, 2590-2595 *)
Definition SetName (n : string) : M unit :=
  check (IsValidTableName n) ;;;
  modify (with_name n) ;;;
  modify (with_nil false).

(** NewTable, gotables.go:577-588 *)
Definition NewTable (n : string) : res table :=
  match run (SetName n) 0 NewNilTable with
  | (t, Ok _) => Ok t
  | (_, Err) => Err
  | (_, Panic) => Panic
  end.

(** SetStructShape / IsStructShape, gotables.go:3056-3065, 3047 *)
Definition SetStructShape (b : bool) : M unit := modify (with_shape b).

(** ---------- reading cells ---------- *)

(** GetValByColIndex, gotables.go:2354-2384 *)
Definition GetValByColIndex (t : table) (ci ri : Z) : res value :=
  if is_nil t then Err
  else if negb (HasRow t ri) then Err
  else if negb (HasColByColIndex t ci) then Err
  else cell t ci ri.

(** GetVal, gotables.go:2289-2329 *)
Definition GetVal (t : table) (cn : string) (ri : Z) : res value :=
  if is_nil t then Err
  else let! ci := ColIndex t cn in GetValByColIndex t ci ri.

(** The Go types that have typed accessors, helpers.go (20 types). The string is
    the constant [valType] in each accessor. *)
Definition type_ok (valType colType : string) : bool :=
  (valType =? colType) || isAlias colType valType.

(** The Go type assertion [x.(T)] where T is the Go type written [valType]. *)
Definition dyn_type (valType : string) : string :=
  if valType =? "byte" then "uint8"
  else if valType =? "[]byte" then "[]uint8"
  else if valType =? "rune" then "int32"
  else valType.
Definition type_assert (valType : string) (v : value) : res value :=
  if type_string v =? dyn_type valType then Ok v else Panic.

(** Get<type>(colName, rowIndex), helpers.go:1681-2498; [vt] selects the accessor. *)
Definition GetT (vt : string) (t : table) (cn : string) (ri : Z) : res value :=
  let! ct := ColType t cn in
  if negb (type_ok vt ct) then Err
  else let! ci := ColIndex t cn in
  if negb (HasRow t ri) then Err
  else let! v := cell t ci ri in type_assert vt v.

(** Get<type>ByColIndex(colIndex, rowIndex), helpers.go:3567-4305 *)
Definition GetTByColIndex (vt : string) (t : table) (ci ri : Z) : res value :=
  let! ct := ColTypeByColIndex t ci in
  if negb (type_ok vt ct) then Err
  else if negb (HasRow t ri) then Err
  else let! v := cell t ci ri in type_assert vt v.

(** The panicking variants Get<type>MustGet, Get<type>ByColIndexMustGet and
    GetValMustGet (helpers.go:2505-2880, 4311-4790; gotables.go:2274, 2335). *)
Definition must {A} (r : res A) : res A := match r with Ok a => Ok a | _ => Panic end.

(** ---------- writing cells ---------- *)

Definition not_nil_value (v : value) : bool :=
  match v with VNil | VTable None => false | _ => true end.

(** SetValByColIndex, gotables.go:1933-1996 *)
Definition SetValByColIndex (ci ri : Z) (v : value) : M unit :=
  check (not_nil_value v) ;;;
  let* t := get in
  check (HasRow t ri) ;;;
  let* ct := reads (fun t => ColTypeByColIndex t ci) in
  check ((type_string v =? ct) || isAlias ct (type_string v)) ;;;
  set_cell ci ri v.

(** SetVal, gotables.go:1895-1930 *)
Definition SetVal (cn : string) (ri : Z) (v : value) : M unit :=
  check (not_nil_value v) ;;;
  let* ci := reads (fun t => ColIndex t cn) in
  SetValByColIndex ci ri v.

(** nil []byte / nil *Table arguments are rejected by the typed setters
    (helpers.go:80-83, 866-869). *)
Definition not_nil_arg (v : value) : bool :=
  match v with VBytes None | VTable None => false | _ => true end.

(** Set<type>(colName, rowIndex, newVal), helpers.go:67-945.  The argument has
    the Go type [vt]; see [arg_of_type].  (SetTable also writes newVal.parentTable;
    that effect is on another table and is in the heap model.) *)
Definition SetT (vt : string) (cn : string) (ri : Z) (v : value) : M unit :=
  check (not_nil_arg v) ;;;
  let* ct := reads (fun t => ColType t cn) in
  check (type_ok vt ct) ;;;
  let* ci := reads (fun t => ColIndex t cn) in
  let* t := get in
  check (HasRow t ri) ;;;
  set_cell ci ri v.

(** Set<type>ByColIndex(colIndex, rowIndex, newVal), helpers.go:954-1672:
    [table.colTypes[colIndex]] is an unchecked index. *)
Definition SetTByColIndex (vt : string) (ci ri : Z) (v : value) : M unit :=
  check (not_nil_arg v) ;;;
  let* ct := reads (fun t => match znth (ctypes t) ci with Some ct => Ok ct | None => Panic end) in
  check (type_ok vt ct) ;;;
  let* t := get in
  check (HasRow t ri) ;;;
  set_cell ci ri v.

(** Go's static typing: the argument of Set<type> has that type. *)
Definition arg_of_type (vt : string) (v : value) : bool := type_string v =? dyn_type vt.

(** ---------- zero values ---------- *)

Definition MinTime : time := mkTime 0 0 0.

(** Zero value of a column type other than "*Table" (helpers.go:4806-4848). *)
Definition zero_plain (ct : string) : option value :=
  if ct =? "[]byte" then Some (VBytes (Some []))
  else if ct =? "[]uint8" then Some (VBytes (Some []))
  else if ct =? "bool" then Some (VBool false)
  else if ct =? "byte" then Some (VInt KUint8 0)
  else if ct =? "float32" then Some (VFloat32 (S754_zero false))
  else if ct =? "float64" then Some (VFloat64 (S754_zero false))
  else if ct =? "int" then Some (VInt KInt 0)
  else if ct =? "int16" then Some (VInt KInt16 0)
  else if ct =? "int32" then Some (VInt KInt32 0)
  else if ct =? "int64" then Some (VInt KInt64 0)
  else if ct =? "int8" then Some (VInt KInt8 0)
  else if ct =? "rune" then Some (VInt KInt32 0)
  else if ct =? "string" then Some (VString "")
  else if ct =? "uint" then Some (VInt KUint 0)
  else if ct =? "uint16" then Some (VInt KUint16 0)
  else if ct =? "uint32" then Some (VInt KUint32 0)
  else if ct =? "uint64" then Some (VInt KUint64 0)
  else if ct =? "uint8" then Some (VInt KUint8 0)
  else if ct =? "time.Time" then Some (VTime MinTime)
  else None.

(** The switch of SetCellToZeroValueByColIndex / SetRowCellsToZeroValue
    (helpers.go:4860-4923, 4942-5010); "*Table" allocates a NilTable, whose
    parent is set only by SetRowCellsToZeroValue. *)
Definition zero_val (setparent : bool) (ct : string) : M value :=
  if ct =? "*Table" then let* p := alloc setparent in ret (VTable (Some p))
  else match zero_plain ct with Some v => ret v | None => fail end.

(** SetCellToZeroValueByColIndex, helpers.go:4850-4926 (no bounds checks) *)
Definition SetCellToZeroValueByColIndex (ci ri : Z) : M unit :=
  let* ct := reads (fun t => match znth (ctypes t) ci with Some ct => Ok ct | None => Panic end) in
  let* v := zero_val false ct in
  set_cell ci ri v.

(** SetCellToZeroValue, gotables.go:945-963 *)
Definition SetCellToZeroValue (cn : string) (ri : Z) : M unit :=
  let* ci := reads (fun t => ColIndex t cn) in
  SetCellToZeroValueByColIndex ci ri.

(** [0; 1; ...; n-1] as Go ints *)
Definition zseq (n : nat) : list Z := map Z.of_nat (seq 0 n).

(** SetRowCellsToZeroValue, helpers.go:4928-5020 *)
Definition SetRowCellsToZeroValue (ri : Z) : M unit :=
  let* t := get in
  check (negb (is_nil t)) ;;;
  mfor (zseq (List.length (cnames t))) (fun ci =>
    let* ct := reads (fun t => match znth (ctypes t) ci with Some ct => Ok ct | None => Panic end) in
    let* v := zero_val true ct in
    set_cell ci ri v).

(** SetColCellsToZeroValueByColIndex, gotables.go:838-855 *)
Definition SetColCellsToZeroValueByColIndex (ci : Z) : M unit :=
  let* t := get in
  mfor (zseq (List.length (rows t))) (fun ri => SetCellToZeroValueByColIndex ci ri).

(** SetColCellsToZeroValue, gotables.go:823-835 *)
Definition SetColCellsToZeroValue (cn : string) : M unit :=
  let* ci := reads (fun t => ColIndex t cn) in
  SetColCellsToZeroValueByColIndex ci.

Definition NaN32 : value := VFloat32 S754_nan.
Definition NaN64 : value := VFloat64 S754_nan.

(** SetRowFloatCellsToNaN, gotables.go:771-794 *)
Definition SetRowFloatCellsToNaN (ri : Z) : M unit :=
  let* t := get in
  mfor (zseq (List.length (cnames t))) (fun ci =>
    let* ct := reads (fun t => ColTypeByColIndex t ci) in
    if ct =? "float32" then SetTByColIndex "float32" ci ri NaN32
    else if ct =? "float64" then SetTByColIndex "float64" ci ri NaN64
    else ret tt).

(** SetFloatCellToNaNByColIndex, gotables.go:912-943 *)
Definition SetFloatCellToNaNByColIndex (ci ri : Z) : M unit :=
  let* ct := reads (fun t => ColTypeByColIndex t ci) in
  if ct =? "float32" then SetTByColIndex "float32" ci ri NaN32
  else if ct =? "float64" then SetTByColIndex "float64" ci ri NaN64
  else fail.

(** SetFloatCellToNaN, gotables.go:897-910 *)
Definition SetFloatCellToNaN (cn : string) (ri : Z) : M unit :=
  let* ci := reads (fun t => ColIndex t cn) in
  SetFloatCellToNaNByColIndex ci ri.

(** SetColFloatCellsToNaNByColIndex, gotables.go:877-895 *)
Definition SetColFloatCellsToNaNByColIndex (ci : Z) : M unit :=
  let* t := get in
  mfor (zseq (List.length (rows t))) (fun ri => SetFloatCellToNaNByColIndex ci ri).

(** SetColFloatCellsToNaN, gotables.go:858-874 *)
Definition SetColFloatCellsToNaN (cn : string) : M unit :=
  let* ci := reads (fun t => ColIndex t cn) in
  SetColFloatCellsToNaNByColIndex ci.

(** SetAllFloatCellsToNaN, gotables.go:797-820 *)
Definition SetAllFloatCellsToNaN : M unit :=
  let* t := get in
  mfor (zseq (List.length (cnames t))) (fun ci =>
    let* ct := reads (fun t => ColTypeByColIndex t ci) in
    if (ct =? "float32") || (ct =? "float64") then SetColFloatCellsToNaNByColIndex ci
    else ret tt).

(** ---------- rows ---------- *)

(** AppendRow, gotables.go:721-768 *)
Definition AppendRow : M unit :=
  let* t := get in
  check (negb (is_nil t)) ;;;
  modify (fun t => with_rows (rows t ++ [repeat VNil (List.length (cnames t))]) t) ;;;
  let* t := get in
  SetRowCellsToZeroValue (RowCount t - 1).

(** AppendRows, gotables.go:670-708 *)
Definition AppendRows (howMany : Z) : M unit :=
  let* t := get in
  check (negb (is_nil t)) ;;;
  check (negb (howMany <? 0)%Z) ;;;
  mfor (seq 0 (Z.to_nat howMany)) (fun _ => AppendRow).

(** appendRowSlice, gotables.go:965-985 *)
Definition appendRowSlice (row : list value) : M unit :=
  modify (fun t => with_rows (rows t ++ [row]) t).

(** DeleteRows, gotables.go:1056-1120 *)
Definition DeleteRows (first last : Z) : M unit :=
  let* t := get in
  check (negb ((first <? 0) || (first >? RowCount t - 1))%Z) ;;;
  check (negb ((last <? 0) || (last >? RowCount t - 1))%Z) ;;;
  check (negb (first >? last)%Z) ;;;
  modify (with_rows (firstn (Z.to_nat first) (rows t) ++ skipn (Z.to_nat (last + 1)) (rows t))).

(** DeleteRow, gotables.go:987-1021: an error of DeleteRows is swallowed. *)
Definition DeleteRow (ri : Z) : M unit :=
  let* t := get in
  check (negb ((ri <? 0) || (ri >? RowCount t - 1))%Z) ;;;
  (fun s => match DeleteRows ri ri s with (s', Panic) => (s', Panic) | (s', _) => (s', Ok tt) end).

(** DeleteRowsAll, gotables.go:1024-1053 *)
Definition DeleteRowsAll : M unit :=
  let* t := get in
  if (RowCount t >? 0)%Z then DeleteRows 0 (RowCount t - 1) else ret tt.

(** ---------- columns ---------- *)

(** AppendCol, gotables.go:1795-1837 *)
Definition AppendCol (cn ct : string) : M unit :=
  let* t := get in
  check (negb (is_nil t)) ;;;
  check (IsValidColName cn) ;;;
  check (IsValidColType ct) ;;;
  check (match mget (cmap t) cn with Some _ => false | None => true end) ;;;
  modify (fun t => with_cols (cnames t ++ [cn]) (ctypes t ++ [ct]) (cmap t) t) ;;;
  modify (fun t => with_cols (cnames t) (ctypes t) (mset (cmap t) cn (List.length (cnames t) - 1)) t) ;;;
  modify (fun t => with_rows (map (fun row => row ++ [VNil]) (rows t)) t) ;;;
  SetColCellsToZeroValue cn.

(** appendCols, gotables.go:2001-2017 *)
Definition appendCols (cns cts : list string) : M unit :=
  check (Nat.eqb (List.length cns) (List.length cts)) ;;;
  mfor (combine cns cts) (fun p => AppendCol (fst p) (snd p)).

(** NewTableFromMetadata, gotables.go:620-648 *)
Definition NewTableFromMetadata (n : string) (cns cts : list string) : res table :=
  if negb (Nat.eqb (List.length cns) (List.length cts)) then Err
  else let! t := NewTable n in
  match run (appendCols cns cts) 0 t with
  | (t', Ok _) => Ok t'
  | (_, Err) => Err
  | (_, Panic) => Panic
  end.

(** The renumbering loop of DeleteColByColIndex, gotables.go:1862-1864 *)
Fixpoint renumber (ns : list string) (i : nat) (m : smap) : smap :=
  match ns with
  | [] => m
  | n :: r => renumber r (S i) (mset m n i)
  end.

(** DeleteColByColIndex, gotables.go:1839-1879 *)
Definition DeleteColByColIndex (ci : Z) : M unit :=
  let* t := get in
  check (negb ((ci <? 0) || (ci >? ColCount t - 1))%Z) ;;;
  let* cn := reads (fun t => ColName t ci) in
  let c := Z.to_nat ci in
  modify (fun t => with_cols (remove_at c (cnames t)) (ctypes t) (cmap t) t) ;;;
  modify (fun t => with_cols (cnames t) (ctypes t) (renumber (cnames t) 0 (mdel (cmap t) cn)) t) ;;;
  modify (fun t => with_cols (cnames t) (remove_at c (ctypes t)) (cmap t) t) ;;;
  modify (fun t => with_rows (map (remove_at c) (rows t)) t).

(** DeleteCol, gotables.go:1881-1892 *)
Definition DeleteCol (cn : string) : M unit :=
  let* ci := reads (fun t => ColIndex t cn) in
  DeleteColByColIndex ci.

(** RenameCol, gotables.go:2624-2659 *)
Definition RenameCol (old new : string) : M unit :=
  let* hasOld := reads (fun t => HasCol t old) in
  check hasOld ;;;
  let* hasNew := reads (fun t => HasCol t new) in
  check (negb hasNew) ;;;
  check (IsValidColName new) ;;;
  let* ci := reads (fun t => ColIndex t old) in
  modify (fun t => with_cols (upd (cnames t) (Z.to_nat ci) new) (ctypes t) (cmap t) t) ;;;
  modify (fun t => with_cols (cnames t) (ctypes t) (mset (mdel (cmap t) old) new (Z.to_nat ci)) t).

(** RenameColByColIndex, gotables.go:2661-2677 *)
Definition RenameColByColIndex (ci : Z) (new : string) : M unit :=
  let* old := reads (fun t => ColName t ci) in
  RenameCol old new.

(** sort.Ints on the copy of orderIndices followed by the loop [s[i] != i]
    (gotables.go:4174-4183): true iff the sorted copy is 0..n-1.  Modelled with
    insertion sort; sort.Ints returns the unique sorted permutation. *)
Fixpoint zinsert (x : Z) (l : list Z) : list Z :=
  match l with
  | [] => [x]
  | y :: r => if (x <=? y)%Z then x :: l else y :: zinsert x r
  end.
Definition zsort (l : list Z) : list Z := fold_right zinsert [] l.
Fixpoint zlist_eqb (a b : list Z) : bool :=
  match a, b with
  | [], [] => true
  | x :: a', y :: b' => (x =? y)%Z && zlist_eqb a' b'
  | _, _ => false
  end.
Definition valid_order (n : nat) (order : list Z) : bool := zlist_eqb (zsort order) (zseq n).

(** [tmp[order[0]], tmp[order[1]], ...] (indices known to be in range) *)
Definition permute {A} (order : list Z) (d : A) (l : list A) : list A :=
  map (fun i => nth (Z.to_nat i) l d) order.

(** The map updates of the first loop, gotables.go:4209-4212 *)
Definition reindex (ns : list string) (m : smap) : smap := renumber ns 0 m.

(** ReorderColsByColIndex, gotables.go:4161-4229 *)
Definition ReorderColsByColIndex (order : list Z) : M unit :=
  let* t := get in
  let n := List.length (cnames t) in
  check (Nat.eqb (List.length order) n) ;;;
  check (valid_order n order) ;;;
  modify (fun t => with_cols (permute order "" (cnames t)) (ctypes t)
                             (reindex (permute order "" (cnames t)) (cmap t)) t) ;;;
  modify (fun t => with_cols (cnames t) (permute order "" (ctypes t)) (cmap t) t) ;;;
  modify (fun t => with_rows (map (permute order VNil) (rows t)) t).

Fixpoint mapM {A B} (f : A -> res B) (l : list A) : res (list B) :=
  match l with
  | [] => Ok []
  | x :: r => let! y := f x in let! ys := mapM f r in Ok (y :: ys)
  end.

(** ReorderCols, gotables.go:4236-4271 *)
Definition ReorderCols (names : list string) : M unit :=
  let* t := get in
  check (Nat.eqb (List.length names) (List.length (cnames t))) ;;;
  let* order := reads (fun t => mapM (ColIndex t) names) in
  ReorderColsByColIndex order.

(** Reverse, gotables.go:4276-4287: swap left/right while left < right. *)
Definition swap_rows {A} (i j : nat) (l : list A) : list A :=
  match nth_error l i, nth_error l j with
  | Some x, Some y => upd (upd l i y) j x
  | _, _ => l
  end.
Fixpoint reverse_loop {A} (fuel left right : nat) (l : list A) : list A :=
  match fuel with
  | O => l
  | S f => if Nat.ltb left right then reverse_loop f (S left) (right - 1) (swap_rows left right l) else l
  end.
Definition Reverse : M unit :=
  modify (fun t => with_rows (reverse_loop (List.length (rows t)) 0 (List.length (rows t) - 1) (rows t)) t).

(** ShufflePseudorandom / ShuffleRandom, gotables.go:4294-4325.  rand.Shuffle(n, swap)
    calls swap(i,j) with 0 <= i,j < n chosen by the random source; the model takes
    the sequence of calls as an argument. *)
Definition Shuffle (swaps : list (nat * nat)) : M unit :=
  modify (fun t => with_rows (fold_left (fun rs p => swap_rows (fst p) (snd p) rs) swaps (rows t)) t).

