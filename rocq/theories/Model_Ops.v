(** Model_Ops.v -- the calls that change one table, as data, so that histories of calls
    can be quantified over. *)
From Coq Require Import ZArith NArith List String Ascii Bool SpecFloat.
From Verif Require Import Base Model_Names Model_Table Model_Sort Model_Copy.
Import ListNotations.
Local Open Scope string_scope.
Local Open Scope list_scope.

(** One constructor per mutating method of *Table (SwapCols and SwapColsByColIndex are
    left out: see C46).  The Set<type>MustSet variants call Set<type> and panic on an
    error (helpers.go:2885-3560). *)
Inductive op :=
| OSetName (n : string)
| OSetStructShape (b : bool)
| OAppendRow
| OAppendRows (n : Z)
| ODeleteRow (i : Z)
| ODeleteRows (first last : Z)
| ODeleteRowsAll
| OAppendCol (cn ct : string)
| ODeleteCol (cn : string)
| ODeleteColByColIndex (ci : Z)
| ORenameCol (old new : string)
| ORenameColByColIndex (ci : Z) (new : string)
| OSetVal (cn : string) (ri : Z) (v : value)
| OSetValByColIndex (ci ri : Z) (v : value)
| OSet (vt cn : string) (ri : Z) (v : value)
| OSetByColIndex (vt : string) (ci ri : Z) (v : value)
| OSetCellToZeroValue (cn : string) (ri : Z)
| OSetCellToZeroValueByColIndex (ci ri : Z)
| OSetRowCellsToZeroValue (ri : Z)
| OSetColCellsToZeroValue (cn : string)
| OSetColCellsToZeroValueByColIndex (ci : Z)
| OSetRowFloatCellsToNaN (ri : Z)
| OSetAllFloatCellsToNaN
| OSetColFloatCellsToNaN (cn : string)
| OSetColFloatCellsToNaNByColIndex (ci : Z)
| OSetFloatCellToNaN (cn : string) (ri : Z)
| OSetFloatCellToNaNByColIndex (ci ri : Z)
| OReorderCols (names : list string)
| OReorderColsByColIndex (order : list Z)
| OReverse
| OShuffle (swaps : list (nat * nat))
| OSetSortKeys (cns : list string)
| OSetSortKeysReverse (cns : list string)
| OAppendSortKey (cn : string)
| ODeleteSortKey (cn : string)
| OSort (cns : list string)
| OSortSimple (cns : list string)
| OOrderColsBySortKeys.

Definition exec (E : env) (o : op) : M unit :=
  match o with
  | OSetName n => SetName n
  | OSetStructShape b => SetStructShape b
  | OAppendRow => AppendRow
  | OAppendRows n => AppendRows n
  | ODeleteRow i => DeleteRow i
  | ODeleteRows f l => DeleteRows f l
  | ODeleteRowsAll => DeleteRowsAll
  | OAppendCol cn ct => AppendCol cn ct
  | ODeleteCol cn => DeleteCol cn
  | ODeleteColByColIndex ci => DeleteColByColIndex ci
  | ORenameCol o n => RenameCol o n
  | ORenameColByColIndex ci n => RenameColByColIndex ci n
  | OSetVal cn ri v => SetVal cn ri v
  | OSetValByColIndex ci ri v => SetValByColIndex ci ri v
  | OSet vt cn ri v => SetT vt cn ri v
  | OSetByColIndex vt ci ri v => SetTByColIndex vt ci ri v
  | OSetCellToZeroValue cn ri => SetCellToZeroValue cn ri
  | OSetCellToZeroValueByColIndex ci ri => SetCellToZeroValueByColIndex ci ri
  | OSetRowCellsToZeroValue ri => SetRowCellsToZeroValue ri
  | OSetColCellsToZeroValue cn => SetColCellsToZeroValue cn
  | OSetColCellsToZeroValueByColIndex ci => SetColCellsToZeroValueByColIndex ci
  | OSetRowFloatCellsToNaN ri => SetRowFloatCellsToNaN ri
  | OSetAllFloatCellsToNaN => SetAllFloatCellsToNaN
  | OSetColFloatCellsToNaN cn => SetColFloatCellsToNaN cn
  | OSetColFloatCellsToNaNByColIndex ci => SetColFloatCellsToNaNByColIndex ci
  | OSetFloatCellToNaN cn ri => SetFloatCellToNaN cn ri
  | OSetFloatCellToNaNByColIndex ci ri => SetFloatCellToNaNByColIndex ci ri
  | OReorderCols ns => ReorderCols ns
  | OReorderColsByColIndex order => ReorderColsByColIndex order
  | OReverse => Reverse
  | OShuffle sw => Shuffle sw
  | OSetSortKeys cns => SetSortKeys cns
  | OSetSortKeysReverse cns => SetSortKeysReverse cns
  | OAppendSortKey cn => AppendSortKey cn
  | ODeleteSortKey cn => DeleteSortKey cn
  | OSort cns => Sort E cns
  | OSortSimple cns => SortSimple E cns
  | OOrderColsBySortKeys => OrderColsBySortKeys
  end.

(** What Go's type checker guarantees of the arguments: the value passed to Set<type> has
    that type, values have the range of their type, and a pointer points to a table that
    exists (addresses below [n]). *)
Definition ptr_below (n : nat) (v : value) : bool :=
  match v with VTable (Some p) => Nat.ltb p n | _ => true end.
Definition op_typed (n : nat) (o : op) : bool :=
  match o with
  | OSetVal _ _ v | OSetValByColIndex _ _ v => go_value v && ptr_below n v
  | OSet vt _ _ v | OSetByColIndex vt _ _ v =>
      str_in vt all_types && arg_of_type vt v && go_value v && ptr_below n v
  | _ => true
  end.
