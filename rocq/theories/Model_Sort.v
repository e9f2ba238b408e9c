(** Model_Sort.v -- sort keys, Sort, Search, column swaps (sort.go). *)
From Coq Require Import ZArith NArith List String Ascii Bool SpecFloat.
From Verif Require Import Base Model_Names Model_Table.
Import ListNotations.
Local Open Scope string_scope.
Local Open Scope list_scope.

(** What the code takes from the Go library here:
    [to_lower] is strings.ToLower; [go_sort less rows] is sort.Sort on the rows with
    the given Less function.  [less] returns None when the Go Less function panics;
    [go_sort] returns None when such a panic leaves sort.Sort. *)
Record env := mkEnv {
  to_lower : string -> string;
  go_sort : (list value -> list value -> option bool) -> list (list value) -> option (list (list value)) }.

(** ---------- comparison functions ---------- *)

(** if i < j return -1 else if i > j return +1 else return 0 *)
Definition cmpZ (a b : Z) : Z := if (a <? b)%Z then -1 else if (a >? b)%Z then 1 else 0.

(** Go < on strings is bytewise lexicographic order. *)
Fixpoint str_ltb (a b : string) : bool :=
  match a, b with
  | _, EmptyString => false
  | EmptyString, String _ _ => true
  | String x a', String y b' =>
      if N.ltb (N_of_ascii x) (N_of_ascii y) then true
      else if N.ltb (N_of_ascii y) (N_of_ascii x) then false
      else str_ltb a' b'
  end.

(** compare_Alphabetic_string, sort.go:297-315 *)
Definition cmp_string (E : env) (si sj : string) : Z :=
  let li := to_lower E si in let lj := to_lower E sj in
  if str_ltb li lj then -1 else if str_ltb lj li then 1
  else if str_ltb si sj then -1 else if str_ltb sj si then 1 else 0.

(** Go < on floats: false when an operand is NaN. *)
Definition float_ltb (a b : spec_float) : bool :=
  match SFcompare a b with Some Lt => true | _ => false end.

(** compare_float32, compare_float64, sort.go:437-459 *)
Definition cmp_float (a b : spec_float) : Z :=
  if float_ltb a b then -1 else if float_ltb b a then 1 else 0.

(** compare_bool, sort.go:461-471 *)
Definition cmp_bool (a b : bool) : Z :=
  if negb a && b then -1 else if a && negb b then 1 else 0.

(** compare_int ... compare_uint8, sort.go:317-435: type assertions, then < and > *)
Definition cmp_int (k : ikind) (v w : value) : option Z :=
  match v, w with
  | VInt kv a, VInt kw b => if ikind_eqb k kv && ikind_eqb k kw then Some (cmpZ a b) else None
  | _, _ => None
  end.

(** compareFuncs[colType](i, j), sort.go:38-53.  None: the type assertion panics
    (or there is no such function). *)
Definition compare_val (E : env) (ct : string) (v w : value) : option Z :=
  if ct =? "bool" then
    match v, w with VBool a, VBool b => Some (cmp_bool a b) | _, _ => None end
  else if ct =? "float32" then
    match v, w with VFloat32 a, VFloat32 b => Some (cmp_float a b) | _, _ => None end
  else if ct =? "float64" then
    match v, w with VFloat64 a, VFloat64 b => Some (cmp_float a b) | _, _ => None end
  else if ct =? "uint" then cmp_int KUint v w
  else if ct =? "int" then cmp_int KInt v w
  else if ct =? "int16" then cmp_int KInt16 v w
  else if ct =? "int32" then cmp_int KInt32 v w
  else if ct =? "int64" then cmp_int KInt64 v w
  else if ct =? "int8" then cmp_int KInt8 v w
  else if ct =? "string" then
    match v, w with VString a, VString b => Some (cmp_string E a b) | _, _ => None end
  else if ct =? "uint16" then cmp_int KUint16 v w
  else if ct =? "uint32" then cmp_int KUint32 v w
  else if ct =? "uint64" then cmp_int KUint64 v w
  else if ct =? "uint8" then cmp_int KUint8 v w
  else None.

(** The keys of compareFuncs, sort.go:38-53 *)
Definition sortable_types : list string :=
  [ "bool"; "float32"; "float64"; "uint"; "int"; "int16"; "int32"; "int64"; "int8"; "string";
    "uint16"; "uint32"; "uint64"; "uint8" ].

(** ---------- sort keys ---------- *)

(** SortKeyCount, sort.go:790-792 *)
Definition SortKeyCount (t : table) : Z := Z.of_nat (List.length (skeys t)).

(** AppendSortKey, sort.go:233-262 *)
Definition AppendSortKey (cn : string) : M unit :=
  let* ct := reads (fun t => ColType t cn) in
  check (negb (ct =? "")) ;;;
  check (str_in ct sortable_types) ;;;
  modify (fun t => with_skeys (skeys t ++ [mkKey cn ct false]) t).

(** SetSortKeys, sort.go:168-186 *)
Definition SetSortKeys (cns : list string) : M unit :=
  modify (with_skeys []) ;;;
  mfor cns AppendSortKey.

(** setSortKeyReverse, sort.go:210-231 *)
Definition setSortKeyReverse (cn : string) : M unit :=
  let* t := get in
  check (negb (Nat.eqb (List.length (skeys t)) 0)) ;;;
  modify (with_skeys (map (fun k => if k_col k =? cn then mkKey (k_col k) (k_type k) true else k) (skeys t))) ;;;
  check (existsb (fun k => k_col k =? cn) (skeys t)).

(** SetSortKeysReverse, sort.go:195-208 *)
Definition SetSortKeysReverse (cns : list string) : M unit := mfor cns setSortKeyReverse.

(** The search loop of DeleteSortKey, sort.go:275-281 *)
Fixpoint find_key (cn : string) (ks : list skey) (i : nat) : option nat :=
  match ks with
  | [] => None
  | k :: r => if k_col k =? cn then Some i else find_key cn r (S i)
  end.

(** DeleteSortKey, sort.go:265-284 *)
Definition DeleteSortKey (cn : string) : M unit :=
  let* _ := reads (fun t => ColType t cn) in
  let* t := get in
  match find_key cn (skeys t) 0 with
  | Some i => modify (with_skeys (remove_at i (skeys t)))
  | None => fail
  end.

(** GetSortKeysAsTable, sort.go:102-150: a new table *)
Definition GetSortKeysAsTable (t : table) : res table :=
  let! kt := NewTable "SortKeys" in
  let build : M unit :=
    AppendCol "index" "int" ;;;
    AppendCol "colName" "string" ;;;
    AppendCol "colType" "string" ;;;
    AppendCol "reverse" "bool" ;;;
    mfor (combine (zseq (List.length (skeys t))) (skeys t)) (fun p =>
      let '(ri, k) := p in
      AppendRow ;;;
      SetT "int" "index" ri (VInt KInt ri) ;;;
      SetT "string" "colName" ri (VString (k_col k)) ;;;
      SetT "string" "colType" ri (VString (k_type k)) ;;;
      SetT "bool" "reverse" ri (VBool (k_rev k))) in
  match run build 0 kt with
  | (t', Ok _) => Ok t'
  | (_, Err) => Err
  | (_, Panic) => Panic
  end.

(** The reading loop of SetSortKeysFromTable, sort.go:815-833 *)
Definition read_keys (kt : table) : res (list string * list string) :=
  let! l := mapM (fun ri =>
      let! c := GetT "string" kt "colName" ri in
      let! r := GetT "bool" kt "reverse" ri in
      match c, r with VString c', VBool r' => Ok (c', r') | _, _ => Panic end)
    (zseq (List.length (rows kt))) in
  Ok (map fst l, map fst (filter snd l)).

(** SetSortKeysFromTable, sort.go:795-846 *)
Definition SetSortKeysFromTable (from : table) : M unit :=
  check (negb (SortKeyCount from =? 0)%Z) ;;;
  let* p := lift (let! kt := GetSortKeysAsTable from in read_keys kt) in
  SetSortKeys (fst p) ;;;
  SetSortKeysReverse (snd p).

(** IsSortKey, sort.go:894-911 *)
Definition IsSortKey (t : table) (cn : string) : res bool :=
  let! has := HasCol t cn in
  if has then Ok (existsb (fun k => k_col k =? cn) (skeys t)) else Err.

(** ---------- Sort ---------- *)

(** The Less function of sortByKeys, sort.go:571-590.  A missing column gives
    index -1 (the error of ColIndex is ignored), so row[-1] panics. *)
Fixpoint less_rows (E : env) (m : smap) (ks : list skey) (ri rj : list value) : option bool :=
  match ks with
  | [] => Some false
  | k :: r =>
      match mget m (k_col k) with
      | None => None
      | Some c =>
          match nth_error ri c, nth_error rj c with
          | Some vi, Some vj =>
              match compare_val E (k_type k) vi vj with
              | None => None
              | Some cmp =>
                  let cmp := if k_rev k then (cmp * -1)%Z else cmp in
                  if (cmp =? 0)%Z then less_rows E m r ri rj else Some (cmp <? 0)%Z
              end
          | _, _ => None
          end
      end
  end.

(** sortByKeys, sort.go:570-591.  If Less panics the history ends. *)
Definition sortByKeys (E : env) : M unit :=
  let* t := get in
  match go_sort E (less_rows E (cmap t) (skeys t)) (rows t) with
  | Some rs => modify (with_rows rs)
  | None => crash
  end.

(** Sort, sort.go:489-512 *)
Definition Sort (E : env) (cols : list string) : M unit :=
  (if Nat.ltb 0 (List.length cols) then SetSortKeys cols else ret tt) ;;;
  let* t := get in
  check (negb (Nat.eqb (List.length (skeys t)) 0)) ;;;
  sortByKeys E.

(** SortSimple, sort.go:534-552 *)
Definition SortSimple (E : env) (cols : list string) : M unit :=
  check (negb (Nat.eqb (List.length cols) 0)) ;;;
  SetSortKeys cols ;;;
  sortByKeys E.

(** ---------- Search ---------- *)

(** sort.Search (Go library; the repository keeps a copy as [search], sort.go:1065-1082,
    and SearchFirst, sort.go:1200-1202, calls it).  [f] may panic. *)
Fixpoint search_loop (fuel : nat) (f : Z -> res bool) (i j : Z) : res Z :=
  match fuel with
  | O => Ok i
  | S n =>
      if (i <? j)%Z then
        let h := (i + (j - i) / 2)%Z in
        let! b := f h in
        if negb b then search_loop n f (h + 1) j else search_loop n f i h
      else Ok i
  end.
Definition SearchFirst_f (n : Z) (f : Z -> res bool) : res Z := search_loop (S (Z.to_nat n)) f 0 n.

(** SearchLast (function), sort.go:1135-1147 *)
Fixpoint search_last_loop (fuel : nat) (f : Z -> res bool) (i j : Z) : res Z :=
  match fuel with
  | O => Ok i
  | S n =>
      if (i <? j - 1)%Z then
        let h := (i + (j - i) / 2)%Z in
        let! b := f h in
        if negb b then search_last_loop n f i h else search_last_loop n f h j
      else Ok i
  end.
Definition SearchLast_f (n : Z) (f : Z -> res bool) : res Z := search_last_loop (S (S (Z.to_nat n))) f (-1) n.

(** IsValidColValue / IsValidCellValue, gotables.go:3124-3151 *)
Definition IsValidColValue (t : table) (cn : string) (v : value) : res bool :=
  let! ct := ColType t cn in
  match v with
  | VNil => Err
  | _ => if reflect_name v =? ct then Ok true else Err
  end.

(** The loop of checkSearchArguments, sort.go:618-632 *)
Fixpoint check_values (t : table) (ks : list skey) (vs : list value) : res unit :=
  match ks, vs with
  | k :: ks', v :: vs' => let! _ := IsValidColValue t (k_col k) v in check_values t ks' vs'
  | [], _ => Ok tt
  | _ :: _, [] => Panic
  end.

(** checkSearchArguments, sort.go:593-635 *)
Definition checkSearchArguments (t : table) (vs : list value) : res unit :=
  if Nat.eqb (List.length vs) 0 then Err
  else if Nat.eqb (List.length (skeys t)) 0 then Err
  else if negb (Nat.eqb (List.length vs) (List.length (skeys t))) then Err
  else check_values t (skeys t) vs.

(** The predicates of searchByKeysFirst (sort.go:671-707, [first] = true) and
    searchByKeysLast (sort.go:1015-1051, [first] = false).  An error of GetVal
    breaks out of the loop and the predicate returns false. *)
Fixpoint search_pred (E : env) (first : bool) (t : table) (ks : list skey) (vs : list value) (ri : Z) : res bool :=
  match ks, vs with
  | [], _ => Ok false
  | k :: ks', [] => Panic
  | k :: ks', v :: vs' =>
      match GetVal t (k_col k) ri with
      | Panic => Panic
      | Err => Ok false
      | Ok cellVal =>
          match compare_val E (k_type k) cellVal v with
          | None => Panic
          | Some cmp =>
              let cmp := if k_rev k then (cmp * -1)%Z else cmp in
              match ks' with
              | [] => Ok (if first then (cmp >=? 0)%Z else (cmp <=? 0)%Z)
              | _ :: _ =>
                  if (if first then (cmp >? 0)%Z else (cmp <? 0)%Z) then Ok true
                  else if (if first then (cmp <? 0)%Z else (cmp >? 0)%Z) then Ok false
                  else search_pred E first t ks' vs' ri
              end
          end
      end
  end.

(** searchValuesMatchRowValues, sort.go:720-736.  The error of GetVal is ignored
    and its nil value is compared, which panics. *)
Fixpoint match_row (E : env) (t : table) (ks : list skey) (vs : list value) (ri : Z) : res bool :=
  match ks, vs with
  | [], _ => Ok true
  | k :: ks', [] => Panic
  | k :: ks', v :: vs' =>
      let cellVal := match GetVal t (k_col k) ri with Ok c => Ok c | Err => Ok VNil | Panic => Panic end in
      let! c := cellVal in
      match compare_val E (k_type k) c v with
      | None => Panic
      | Some cmp => if negb (cmp =? 0)%Z then Ok false else match_row E t ks' vs' ri
      end
  end.

(** SearchFirst = Search, sort.go:645-717.  Err stands for (-1, error). *)
Definition SearchFirst (E : env) (t : table) (vs : list value) : res Z :=
  let! _ := checkSearchArguments t vs in
  let! i := SearchFirst_f (RowCount t) (search_pred E true t (skeys t) vs) in
  if (i <? RowCount t)%Z then
    let! m := match_row E t (skeys t) vs i in if m then Ok i else Err
  else Err.

(** SearchLast, sort.go:998-1061 *)
Definition SearchLast (E : env) (t : table) (vs : list value) : res Z :=
  let! _ := checkSearchArguments t vs in
  let! i := SearchLast_f (RowCount t) (search_pred E false t (skeys t) vs) in
  if (i <? RowCount t)%Z then
    let! m := match_row E t (skeys t) vs i in if m then Ok i else Err
  else Err.

(** SearchRange, sort.go:1209-1229 *)
Definition SearchRange (E : env) (t : table) (vs : list value) : res (Z * Z) :=
  let! _ := checkSearchArguments t vs in
  let! f := SearchFirst E t vs in
  let! l := SearchLast E t vs in
  Ok (f, l).

(** The loop of CompareRows, sort.go:768-779 *)
Fixpoint compare_keys (E : env) (t : table) (ks : list skey) (r1 r2 : Z) : res Z :=
  match ks with
  | [] => Ok 0%Z
  | k :: ks' =>
      let getv ri := match GetVal t (k_col k) ri with Ok c => Ok c | Err => Ok VNil | Panic => Panic end in
      let! c1 := getv r1 in
      let! c2 := getv r2 in
      match compare_val E (k_type k) c1 c2 with
      | None => Panic
      | Some cmp => if negb (cmp =? 0)%Z then Ok cmp else compare_keys E t ks' r1 r2
      end
  end.

(** CompareRows, sort.go:746-783 *)
Definition CompareRows (E : env) (t : table) (r1 r2 : Z) : res Z :=
  if negb (HasRow t r1) then Err
  else if negb (HasRow t r2) then Err
  else if Nat.eqb (List.length (skeys t)) 0 then Err
  else compare_keys E t (skeys t) r1 r2.

(** ---------- column order by keys, swaps ---------- *)

(** OrderColsBySortKeys, sort.go:853-891.  newOrder is a slice of ColCount names
    filled by index; more names than that panics, fewer leaves "". *)
Definition OrderColsBySortKeys : M unit :=
  let* t := get in
  let names := map k_col (skeys t) ++
               filter (fun n => negb (existsb (fun k => k_col k =? n) (skeys t))) (cnames t) in
  let n := List.length (cnames t) in
  (if Nat.ltb n (List.length names) then crash else ret tt) ;;;
  let* _ := reads (fun t => mapM (IsSortKey t) (cnames t)) in
  ReorderCols (names ++ repeat "" (n - List.length names)).

Definition mgetd (m : smap) (k : string) : nat := match mget m k with Some i => i | None => 0 end.

(** SwapColsByColIndex, sort.go:916-956: names, types and map entries are swapped;
    the rows are not touched. *)
Definition SwapColsByColIndex (c1 c2 : Z) : M unit :=
  let* t := get in
  check (HasColByColIndex t c1) ;;;
  check (HasColByColIndex t c2) ;;;
  check (negb (c1 =? c2)%Z) ;;;
  modify (fun t => with_cols (swap_rows (Z.to_nat c1) (Z.to_nat c2) (cnames t)) (ctypes t) (cmap t) t) ;;;
  modify (fun t => with_cols (cnames t) (swap_rows (Z.to_nat c1) (Z.to_nat c2) (ctypes t)) (cmap t) t) ;;;
  let* n1 := reads (fun t => ColName t c1) in
  let* n2 := reads (fun t => ColName t c2) in
  modify (fun t => with_cols (cnames t) (ctypes t)
    (mset (mset (cmap t) n1 (mgetd (cmap t) n2)) n2 (mgetd (cmap t) n1)) t).

(** SwapCols, sort.go:961-991 *)
Definition SwapCols (n1 n2 : string) : M unit :=
  let* c1 := reads (fun t => ColIndex t n1) in
  let* c2 := reads (fun t => ColIndex t n2) in
  check (negb (n1 =? n2)) ;;;
  modify (fun t => with_cols (swap_rows (Z.to_nat c1) (Z.to_nat c2) (cnames t)) (ctypes t) (cmap t) t) ;;;
  modify (fun t => with_cols (cnames t) (swap_rows (Z.to_nat c1) (Z.to_nat c2) (ctypes t)) (cmap t) t) ;;;
  modify (fun t => with_cols (cnames t) (ctypes t)
    (mset (mset (cmap t) n1 (mgetd (cmap t) n2)) n2 (mgetd (cmap t) n1)) t).
