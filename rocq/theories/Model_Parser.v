(** Model_Parser.v -- reading tables from text: parser.go, and NewTableSetFromString and its
    relatives in gotables.go. *)
From Coq Require Import ZArith NArith List String Ascii Bool SpecFloat.
From Verif Require Import Base Model_Names Model_Table Model_Sort Model_Copy Model_Ops Model_Heap Model_TableSet
  Model_Lex Model_Float Model_Time.
Import ListNotations.
Local Open Scope string_scope.
Local Open Scope list_scope.

Definition of_opt {A} (o : option A) : res A := match o with Some a => Ok a | None => Err end.

(** The integer types that are written as numbers *)
Definition int_kind (ct : string) : option ikind :=
  if ct =? "int" then Some KInt else if ct =? "int8" then Some KInt8
  else if ct =? "int16" then Some KInt16 else if ct =? "int32" then Some KInt32
  else if ct =? "int64" then Some KInt64 else if ct =? "uint" then Some KUint
  else if (ct =? "uint8") || (ct =? "byte") then Some KUint8
  else if ct =? "uint16" then Some KUint16 else if ct =? "uint32" then Some KUint32
  else if ct =? "uint64" then Some KUint64 else None.

(** parser.go:921-937, 985-1138, 1157-1172: the integer cases of getRowSlice *)
Definition get_int (k : ikind) (s : string) : res (value * string) :=
  let! (text, rest) := of_opt (if isigned k then scan_int s else scan_uint s) in
  let! z := of_opt (if isigned k then parseInt (ibits k) text else parseUint (ibits k) text) in
  Ok (VInt k z, rest).

(** parser.go:938-984: the slice cases of getRowSlice *)
Fixpoint all_some {A} (l : list (option A)) : option (list A) :=
  match l with
  | [] => Some []
  | None :: _ => None
  | Some a :: r => match all_some r with Some r' => Some (a :: r') | None => None end
  end.
Definition get_slice (s : string) : res (value * string) :=
  let! (body, rest) := of_opt (scan_slice s) in
  let! zs := of_opt (all_some (map (parseUint 8) (splitSliceString body))) in
  Ok (VBytes (Some (map chr zs)), rest).

(** parser.go:1173-1203: the float cases of getRowSlice *)
Definition get_float (F : ffmt) (s : string) : res (spec_float * string) :=
  let! (text, rest) := of_opt (scan_float s) in
  let! f := of_opt (ParseFloat F text) in
  match f with
  | S754_nan => if text =? "NaN" then Ok (f, rest) else Err
  | _ => Ok (f, rest)
  end.

(** parser.go:1204-1229: a place-holder [name] or [] makes a new table; its parent is the
    table [p] that is being read *)
Definition get_table (p : ptr) (s : string) (h : heap) : res (heap * value * string) :=
  let! (t, rest) :=
    match scan_bracketed s with
    | Some (n, rest) => let! t := NewTable n in Ok (t, rest)
    | None => let! rest := of_opt (scan_empty_brackets s) in Ok (NewNilTable, rest)
    end in
  Ok (h ++ [with_parent (Some p) t], VTable (Some (List.length h)), rest).

Definition pure {A B} (h : heap) (r : res (A * B)) (f : A -> value) : res (heap * value * B) :=
  let! (a, b) := r in Ok (h, f a, b).

(** One turn of the loop of getRowSlice, parser.go:888-1247: the value and the text after it *)
Definition get_value (p : ptr) (ct : string) (s : string) (h : heap) : res (heap * value * string) :=
  match int_kind ct with
  | Some k => pure h (get_int k s) (fun v => v)
  | None =>
      if ct =? "string" then
        pure h (let! (text, rest) := of_opt (scan_string s) in
                let! v := of_opt (Unquote text) in Ok (v, rest)) VString
      else if ct =? "bool" then
        pure h (of_opt (scan_bool s)) (fun text => VBool (text =? "true"))
      else if (ct =? "[]uint8") || (ct =? "[]byte") then pure h (get_slice s) (fun v => v)
      else if ct =? "rune" then
        pure h (let! (text, rest) := of_opt (scan_rune s) in
                if Nat.ltb (String.length text) 1 then Err
                else let! r := of_opt (parseRune text) in Ok (r, rest)) (VInt KInt32)
      else if ct =? "float32" then pure h (get_float F32 s) VFloat32
      else if ct =? "float64" then pure h (get_float F64 s) VFloat64
      else if ct =? "*Table" then get_table p s h
      else if ct =? "time.Time" then
        pure h (let! (f, rest) := of_opt (scan_time s) in
                let! t := of_opt (parse_time f) in Ok (t, rest)) VTime
      else Err
  end.

Definition is_blank (c : ascii) : bool := one_of (String " " (String (chr 9) "")) c.

(** The loop of getRowSlice, parser.go:884-1264 *)
Fixpoint get_values (p : ptr) (cts : list string) (s : string) (h : heap) : res (heap * list value) :=
  match cts with
  | [] => if s =? "" then Ok (h, []) else Err
  | ct :: r =>
      if s =? "" then Err
      else
        let! (h, v, rest) := get_value p ct s h in
        let! (h, vs) := get_values p r (trim_left is_blank rest) h in
        Ok (h, v :: vs)
  end.

(** getRowSlice, parser.go:862-1267.  The result has one element per name; assigning an
    element beyond it panics. *)
Definition getRowSlice (p : ptr) (line : string) (cns cts : list string) (h : heap) : res (heap * list value) :=
  let! (h, vs) := get_values p cts line h in
  if Nat.ltb (List.length cns) (List.length cts) then Panic
  else Ok (h, vs ++ repeat VNil (List.length cns - List.length cts)).

(** ---------- parseString ---------- *)

Inductive section := TABLE_NAME | COL_NAMES | COL_TYPES | COL_ROWS.
Inductive shape := TABLE_SHAPE | STRUCT_SHAPE | UNDEFINED_SHAPE.

(** The local variables of parseString, parser.go:261-276, and the tables *)
Record parse_state := mkPS {
  ps_heap : heap;
  ps_set : tset;
  ps_expecting : section;
  ps_shape : shape;
  ps_has_data : bool;          (* structHasRowData *)
  ps_names : list string;
  ps_types : list string;
  ps_named : bool;             (* tableSetNameHasBeenSet *)
  ps_table : ref }.

Definition with_expecting x g := mkPS (ps_heap g) (ps_set g) x (ps_shape g) (ps_has_data g) (ps_names g) (ps_types g) (ps_named g) (ps_table g).
Definition with_heap x g := mkPS x (ps_set g) (ps_expecting g) (ps_shape g) (ps_has_data g) (ps_names g) (ps_types g) (ps_named g) (ps_table g).
Definition with_shape_data x d g := mkPS (ps_heap g) (ps_set g) (ps_expecting g) x d (ps_names g) (ps_types g) (ps_named g) (ps_table g).
Definition with_names x g := mkPS (ps_heap g) (ps_set g) (ps_expecting g) (ps_shape g) (ps_has_data g) x (ps_types g) (ps_named g) (ps_table g).
Definition with_types x g := mkPS (ps_heap g) (ps_set g) (ps_expecting g) (ps_shape g) (ps_has_data g) (ps_names g) x (ps_named g) (ps_table g).

(** A slice index that panics when it is out of range *)
Definition at_ (l : list string) (i : nat) : res string := match nth_error l i with Some x => Ok x | None => Panic end.

(** getTableShape, parser.go:532-611: shape and structHasRowData *)
Definition getTableShape (ls : list string) : res (shape * bool) :=
  match List.length ls with
  | 1 => Ok (TABLE_SHAPE, false)
  | 2 =>
      let! a := at_ ls 0 in let! b := at_ ls 1 in
      Ok (if IsValidColName a && IsValidColType b then STRUCT_SHAPE else TABLE_SHAPE, false)
  | 3 =>
      let! c := at_ ls 2 in
      if c =? "=" then Err else Ok (TABLE_SHAPE, false)
  | _ =>
      let! a := at_ ls 0 in let! b := at_ ls 1 in let! c := at_ ls 2 in
      Ok (if IsValidColName a && IsValidColType b && (c =? "=") then (STRUCT_SHAPE, true) else (TABLE_SHAPE, false))
  end.

(** getTableSetName, parser.go:668-688 *)
Definition getTableSetName (line : string) : res string :=
  match Fields line with
  | [w] => of_opt (scan_set_name w)
  | [] => Panic                                    (* fields[0] *)
  | _ => Err
  end.

(** getTableName, parser.go:690-709: the first and the last byte are cut off a field that
    starts with a bracketed name *)
Definition getTableName (line : string) : res string :=
  match Fields line with
  | [w] =>
      match scan_bracketed w with
      | None => Err
      | Some _ => match w with
                  | String _ r => match split_last r with Some (n, _) => Ok n | None => Panic end
                  | EmptyString => Panic
                  end
      end
  | [] => Panic                                    (* fields[0] *)
  | _ => Err
  end.

(** getColNames, parser.go:711-730 *)
Definition getColNames (ls : list string) : res (list string) :=
  if forallb IsValidColName ls then Ok ls else Err.
(** getColTypes, parser.go:732-750 *)
Definition getColTypes (line : string) : res (list string) :=
  let cts := split_white line in
  if forallb IsValidColType cts then Ok cts else Err.

(** The table variable: nil would panic *)
Definition current (g : parse_state) : res ptr := match ps_table g with Some p => Ok p | None => Panic end.

(** Call a method of the current table. *)
Definition on_current {A} (p : ptr) (m : M A) (g : parse_state) : res parse_state :=
  let '(h, r) := on_heap p m (ps_heap g) in
  let! _ := r in Ok (with_heap h g).

(** strings.TrimLeft(_, " \t\r\n"), parser.go:419 *)
Definition is_space4 (c : ascii) : bool := one_of (String " " (String (chr 9) (String (chr 13) (String (chr 10) "")))) c.

(** The value part of a struct line, parser.go:403-458 *)
Definition struct_value (p : ptr) (line : string) (ls : list string) (cn ct : string) (g : parse_state) : res parse_state :=
  match until "=" line with
  | None => Err
  | Some (_, after) =>
      if Nat.ltb (List.length ls) 4 then Err
      else
        let data := trim_left is_space4 after in
        let! g := (if (RowCount (tab (ps_heap g) p) =? 0)%Z
                   then let! g := on_current p AppendRow g in on_current p (SetStructShape true) g
                   else Ok g) in
        let! (h, row) := getRowSlice p data [cn] [ct] (ps_heap g) in
        let g := with_heap h g in
        match row, rows (tab (ps_heap g) p) with
        | v :: _, r0 :: _ => on_current p (SetValByColIndex (Z.of_nat (List.length r0) - 1) 0 v) g
        | _, _ => Panic                            (* rowSliceOfStructTable[0], table.rows[0] *)
        end
  end.

(** case _TABLE_NAME, parser.go:314-352 (the line is not blank).  The boolean is true for the
    [continue] after a table set name. *)
Definition table_name_line (line : string) (g : parse_state) : res (bool * parse_state) :=
  match (if ps_named g then Err else getTableSetName line) with
  | Panic => Panic
  | Ok n => Ok (true, mkPS (ps_heap g) (TS_SetName n (ps_set g)) (ps_expecting g) (ps_shape g) (ps_has_data g)
                           (ps_names g) (ps_types g) true (ps_table g))
  | Err =>
      let! n := getTableName line in
      let! t := NewTable n in
      let p := List.length (ps_heap g) in
      let h := ps_heap g ++ [t] in
      let '(ts, r) := AppendTable h (ps_set g) (Some p) in
      let! _ := r in
      Ok (false, mkPS h ts COL_NAMES UNDEFINED_SHAPE (ps_has_data g) (ps_names g) (ps_types g) (ps_named g) (Some p))
  end.

(** case _COL_NAMES, parser.go:354-471 *)
Definition col_names_line (line : string) (g : parse_state) : res parse_state :=
  let ls := split_white line in
  let! g := match ps_shape g with
            | UNDEFINED_SHAPE => let! (sh, d) := getTableShape ls in Ok (with_shape_data sh d g)
            | _ => Ok g
            end in
  match ps_shape g with
  | STRUCT_SHAPE =>
      let! p := current g in
      let! g := on_current p (SetStructShape true) g in
      if Nat.ltb (List.length ls) 2 then Err
      else
        let! cn := at_ ls 0 in
        let! ct := at_ ls 1 in
        if negb (IsValidColName cn) then Err
        else if negb (IsValidColType ct) then Err
        else
          let! g := on_current p (AppendCol cn ct) g in
          if ps_has_data g then struct_value p line ls cn ct g else Ok g
  | _ =>
      let! cns := getColNames ls in
      Ok (with_expecting COL_TYPES (with_names cns g))
  end.

(** case _COL_TYPES, parser.go:473-496 *)
Definition col_types_line (line : string) (g : parse_state) : res parse_state :=
  let! cts := getColTypes line in
  let g := with_types cts g in
  if negb (Nat.eqb (List.length cts) (List.length (ps_names g))) then Err
  else
    let! p := current g in
    let! g := on_current p (appendCols (ps_names g) cts) g in
    Ok (with_expecting COL_ROWS g).

(** case _COL_ROWS, parser.go:498-523 *)
Definition col_rows_line (line : string) (g : parse_state) : res parse_state :=
  let! p := current g in
  let! (h, row) := getRowSlice p line (ps_names g) (ps_types g) (ps_heap g) in
  let! g := on_current p (appendRowSlice row) (with_heap h g) in
  if negb (Nat.eqb (List.length (ps_types g)) (List.length row)) then Err else Ok g.

(** One turn of the loop of parseString, parser.go:288-528.  The boolean is true when the turn
    ends with [continue], that is without the test for io.EOF. *)
Definition parse_line (line0 : string) (g : parse_state) : res (bool * parse_state) :=
  let line := TrimSpace line0 in
  match line with
  | EmptyString =>
      match ps_expecting g with
      | COL_TYPES => Err
      | _ => Ok (false, with_expecting TABLE_NAME g)
      end
  | String c _ =>
      if Ascii.eqb c "#" then Ok (true, g)
      else
        match ps_expecting g with
        | TABLE_NAME => table_name_line line g
        | COL_NAMES => let! g := col_names_line line g in Ok (false, g)
        | COL_TYPES => let! g := col_types_line line g in Ok (false, g)
        | COL_ROWS => let! g := col_rows_line line g in Ok (false, g)
        end
  end.

(** The loop.  After a [continue] on the last line ReadString returns an empty line and
    io.EOF. *)
Fixpoint parse_lines (ls : list string) (g : parse_state) : res parse_state :=
  match ls with
  | [] => Ok g
  | l :: r =>
      let! (continued, g) := parse_line l g in
      match r with
      | [] => if continued : bool then let! (_, g) := parse_line "" g in Ok g else Ok g
      | _ => parse_lines r g
      end
  end.

(** parseString, parser.go:256-530, and NewTableSetFromString, gotables.go:167-176: the new
    tables are added to the heap.  Tables made by a failing call are garbage. *)
Definition NewTableSetFromString (s : string) (h : heap) : heap * res tset :=
  match parse_lines (lines s)
          (mkPS h (NewTableSet "") TABLE_NAME UNDEFINED_SHAPE false [] [] false None) with
  | Ok g => (ps_heap g, Ok (ps_set g))
  | Err => (h, Err)
  | Panic => (h, Panic)
  end.

(** NewTableFromString, gotables.go:182-202 *)
Definition NewTableFromString (s : string) (h : heap) : heap * res ref :=
  let '(h, r) := NewTableSetFromString s h in
  (h, let! ts := r in
      if negb (TableCount ts =? 1)%Z then Err else GetTableByTableIndex ts 0).

(** NewTableFromStringByTableName, gotables.go:218-230, and
    NewTableFromStringByTableIndex, gotables.go:232-244 *)
Definition NewTableFromStringByTableName (s n : string) (h : heap) : heap * res ref :=
  let '(h, r) := NewTableSetFromString s h in (h, let! ts := r in GetTable h ts n).
Definition NewTableFromStringByTableIndex (s : string) (i : Z) (h : heap) : heap * res ref :=
  let '(h, r) := NewTableSetFromString s h in (h, let! ts := r in GetTableByTableIndex ts i).
