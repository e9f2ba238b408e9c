(** Model_Print.v -- tables as text: String, StringPadded, StringUnpadded and the methods that
    return cells as strings (gotables.go). *)
From Coq Require Import ZArith NArith List String Ascii Bool SpecFloat.
From Verif Require Import Base Model_Names Model_Table Model_Sort Model_Copy Model_Ops Model_Heap Model_TableSet
  Model_Lex Model_Float Model_Time Model_Parser.
Import ListNotations.
Local Open Scope list_scope.
Local Open Scope string_scope.

(** fmt.Sprintf("%v", s) of a []uint8 *)
Definition slice_text (o : option (list ascii)) : string :=
  let l := match o with Some l => l | None => [] end in
  "[" ++ String.concat " " (map (fun c => dec_of (code c)) l) ++ "]".

(** A type assertion row[colIndex].(T) followed by printing *)
Definition bytes_of (v : value) : res string := match v with VBytes o => Ok (slice_text o) | _ => Panic end.
Definition int_of (k : ikind) (v : value) : res string :=
  match v with VInt k' z => if ikind_eqb k k' then Ok (dec_of z) else Panic | _ => Panic end.

(** The text of a cell of a column of type [ct] in String() (gotables.go:1461-1545); the
    texts of StringUnpadded() (gotables.go:1209-1272) are the same.  [q] and [r] say how
    strings and runes are written.  None is an unknown type. *)
Definition cell_text (q : string -> string) (r : Z -> string) (h : heap) (ct : string) (v : value) : option (res string) :=
  match int_kind ct with
  | Some k => Some (int_of k v)
  | None =>
      if ct =? "string" then Some (match v with VString s => Ok (q s) | _ => Panic end)
      else if ct =? "bool" then Some (match v with VBool b => Ok (if b then "true" else "false") | _ => Panic end)
      else if (ct =? "[]uint8") || (ct =? "[]byte") then Some (bytes_of v)
      else if ct =? "rune" then Some (match v with VInt KInt32 z => Ok (r z) | _ => Panic end)
      else if ct =? "float32" then Some (match v with VFloat32 f => Ok (format_short F32 f) | _ => Panic end)
      else if ct =? "float64" then Some (match v with VFloat64 f => Ok (format_short F64 f) | _ => Panic end)
      else if ct =? "*Table" then Some (match v with VTable o => Ok ("[" ++ ref_name h o ++ "]") | _ => Panic end)
      else if ct =? "time.Time" then Some (match v with VTime t => Ok (time_text t) | _ => Panic end)
      else None
  end.

(** The types that StringUnpadded() does not know, gotables.go:1209-1272 *)
Definition unpadded_unknown (ct : string) : bool :=
  str_in ct ["byte"; "[]byte"; "[]uint8"; "time.Time"].

(** ---------- GetValAsString ---------- *)

(** GetValAsStringByColIndex, gotables.go:2896-3021: strings and runes without delimiters *)
Definition GetValAsStringByColIndex (h : heap) (t : table) (ci ri : Z) : res string :=
  if is_nil t then Err
  else
    let! v := GetValByColIndex t ci ri in
    match znth (ctypes t) ci with
    | None => Panic
    | Some ct => match cell_text (fun s => s) encode h ct v with Some r => r | None => Err end
    end.
(** GetValAsString, gotables.go:3023-3045 *)
Definition GetValAsString (h : heap) (t : table) (cn : string) (ri : Z) : res string :=
  if is_nil t then Err else let! ci := ColIndex t cn in GetValAsStringByColIndex h t ci ri.
(** GetColValsAsStrings, gotables.go:3097-3118 *)
Fixpoint rmap {A B} (f : A -> res B) (l : list A) : res (list B) :=
  match l with
  | [] => Ok []
  | x :: r => let! y := f x in let! ys := rmap f r in Ok (y :: ys)
  end.
Definition GetColValsAsStrings (h : heap) (t : table) (cn : string) : res (list string) :=
  if is_nil t then Err else rmap (GetValAsString h t cn) (zseq (List.length (rows t))).
(** JoinColVals, gotables.go:3067-3080, and JoinColValsByColIndex, gotables.go:3083-3094 *)
Definition JoinColVals (h : heap) (t : table) (cn sep : string) : res string :=
  let! l := GetColValsAsStrings h t cn in Ok (String.concat sep l).
Definition JoinColValsByColIndex (h : heap) (t : table) (ci : Z) (sep : string) : res string :=
  let! cn := ColName t ci in JoinColVals h t cn sep.

(** ---------- the struct shape ---------- *)

Definition newline : string := String nl "".
Definition name_line (n : string) : string := "[" ++ n ++ "]" ++ newline.

(** printStruct, gotables.go:1610-1650.  An error of GetValAsStringByColIndex leaves its
    result empty. *)
Definition printStruct (h : heap) (t : table) : res string :=
  let! ls := rmap (fun ci =>
      match znth (cnames t) ci, znth (ctypes t) ci with
      | Some cn, Some ct =>
          if (RowCount t >? 0)%Z then
            let! s := match GetValAsStringByColIndex h t ci 0 with Ok s => Ok s | Err => Ok "" | Panic => Panic end in
            let s := if ct =? "string" then String dquote (s ++ String dquote "")
                     else if ct =? "rune" then "'" ++ s ++ "'" else s in
            Ok (cn ++ " " ++ ct ++ " = " ++ s ++ newline)
          else Ok (cn ++ " " ++ ct ++ newline)
      | _, _ => Panic
      end) (zseq (List.length (cnames t))) in
  Ok (name_line (tname t) ++ String.concat "" ls).

(** ---------- StringUnpadded ---------- *)

(** One row of _String, gotables.go:1187-1279: None when a type is unknown *)
Fixpoint unpadded_cells (ip : Z -> bool) (h : heap) (cts : list string) (row : list value) : res (option (list string)) :=
  match cts, row with
  | [], _ => Ok (Some [])
  | ct :: cts, v :: row =>
      if unpadded_unknown ct then Ok None
      else match cell_text (Quote ip) (QuoteRune ip) h ct v with
           | None => Ok None
           | Some r =>
               let! s := r in
               let! rest := unpadded_cells ip h cts row in
               Ok (match rest with Some l => Some (s :: l) | None => None end)
           end
  | _, [] => Panic
  end.
Fixpoint unpadded_rows (ip : Z -> bool) (h : heap) (cts : list string) (rs : list (list value)) : res (option string) :=
  match rs with
  | [] => Ok (Some "")
  | row :: r =>
      let! o := unpadded_cells ip h cts row in
      match o with
      | None => Ok None
      | Some l =>
          let! rest := unpadded_rows ip h cts r in
          Ok (match rest with Some s => Some (String.concat " " l ++ newline ++ s) | None => None end)
      end
  end.
Definition heading (ws : list string) : string :=
  match ws with [] => "" | _ => String.concat " " ws ++ newline end.

(** _String(' ') and StringUnpadded, gotables.go:1136-1290.  The columns are those of
    colNames; colTypes is indexed along. *)
Definition StringUnpadded (ip : Z -> bool) (h : heap) (t : table) : res string :=
  if struct_shape t && (RowCount t <=? 1)%Z then printStruct h t
  else
    let cts := firstn (List.length (cnames t)) (ctypes t) in
    let! o := unpadded_rows ip h cts (rows t) in
    Ok (match o with
        | Some s => name_line (tname t) ++ heading (cnames t) ++ heading (ctypes t) ++ s
        | None => ""
        end).

(** ---------- StringPadded ---------- *)

(** strings.Index(s, "."): what is before the first point, and what is after it *)
Definition at_point (s : string) : option (string * string) := until "." s.
(** preNumberOf, pointsOf, precisionOf: gotables.go:1655-1684 *)
Definition preNumberOf (s : string) : Z :=
  match at_point s with Some (a, _) => Z.of_nat (String.length a) | None => Z.of_nat (String.length s) end.
Definition pointsOf (s : string) : Z := match at_point s with Some _ => 1 | None => 0 end%Z.
Definition precisionOf (s : string) : Z := match at_point s with Some (_, b) => Z.of_nat (String.length b) | None => 0%Z end.

(** prenum, points, precis, width of a column *)
Record widths := mkWd { w_pre : Z; w_points : Z; w_precis : Z; w_width : Z }.
(** setWidths, gotables.go:1686-1692 *)
Definition setWidths (s : string) (w : widths) : widths :=
  let pre := Z.max (w_pre w) (preNumberOf s) in
  let points := Z.max (w_points w) (pointsOf s) in
  let precis := Z.max (w_precis w) (precisionOf s) in
  mkWd pre points precis (Z.max (w_width w) (pre + points + precis)).
Definition widen (s : string) (w : widths) : widths :=
  mkWd (w_pre w) (w_points w) (w_precis w) (Z.max (w_width w) (Z.of_nat (String.length s))).
Definition col_widths (cn ct : string) (cells : list string) : widths :=
  fold_left (fun w s =>
      widen s (if (ct =? "rune") || (ct =? "float32") || (ct =? "float64") then setWidths s w else w))
    cells (widen ct (widen cn (mkWd 0 0 0 0))).

(** A column of the matrix: name, type, texts of the cells *)
Record mcol := mkMC { mc_name : string; mc_type : string; mc_cells : list string }.

(** The cells of one row, gotables.go:1455-1575: None when a type is unknown *)
Fixpoint padded_cells (ip : Z -> bool) (h : heap) (cts : list string) (row : list value) : res (option (list string)) :=
  match cts, row with
  | [], _ => Ok (Some [])
  | ct :: cts, v :: row =>
      match cell_text (Quote ip) (QuoteRune ip) h ct v with
      | None => Ok None
      | Some r =>
          let! s := r in
          let! rest := padded_cells ip h cts row in
          Ok (match rest with Some l => Some (s :: l) | None => None end)
      end
  | _, [] => Panic
  end.
Fixpoint padded_rows (ip : Z -> bool) (h : heap) (cts : list string) (rs : list (list value)) : res (option (list (list string))) :=
  match rs with
  | [] => Ok (Some [])
  | row :: r =>
      let! o := padded_cells ip h cts row in
      match o with
      | None => Ok None
      | Some l => let! rest := padded_rows ip h cts r in
                  Ok (match rest with Some ls => Some (l :: ls) | None => None end)
      end
  end.

Fixpoint spaces (n : nat) : string := match n with O => "" | S k => String " " (spaces k) end.
(** fmt.Sprintf("%*s", w, s) and fmt.Sprintf("%-*s", w, s): widths are in runes *)
Definition pad_left (w : Z) (s : string) : string := spaces (Z.to_nat (w - Z.of_nat (rune_count s))) ++ s.
Definition pad_right (w : Z) (s : string) : string := s ++ spaces (Z.to_nat (w - Z.of_nat (rune_count s))).
(** strings.TrimRight(s, " ") *)
Definition trim_right_spaces (s : string) : string := srev (trim_left (Ascii.eqb " ") (srev s)).

(** padTrailingZeros, gotables.go:3158-3174, on the reversed bytes *)
Fixpoint pad_zeros_rev (l : string) : string :=
  match l with
  | String b r =>
      match r with
      | String p _ => if Ascii.eqb p "." || negb (Ascii.eqb b "0") then l else String " " (pad_zeros_rev r)
      | "" => l
      end
  | "" => l
  end.
Definition padTrailingZeros (s : string) : string :=
  match at_point s with None => s | Some _ => srev (pad_zeros_rev (srev s)) end.

Definition is_float_type (ct : string) : bool := (ct =? "float32") || (ct =? "float64").

(** The text of a cell of a right-aligned column in printMatrix, gotables.go:1330-1352: None when
    ParseFloat fails *)
Definition numeric_text (ct : string) (precis : Z) (s : string) : option string :=
  match ParseFloat (if ct =? "float32" then F32 else F64) s with
  | Some f => Some (format_fixed precis f)
  | None => None
  end.

(** One item of printMatrix without the separator, gotables.go:1329-1373; [s] is its text *)
Definition matrix_item (ct : string) (w : Z) (rightmost is_cell : bool) (precis : Z) (s : string) : option string :=
  if IsNumericColType ct then
    match (if is_cell then numeric_text ct precis s else Some s) with
    | None => None
    | Some s =>
        let s := if is_float_type ct then padTrailingZeros s else s in
        Some (pad_left w s)
    end
  else Some (if rightmost then s else pad_right w s).

(** One line of printMatrix, gotables.go:1326-1377: the columns with their texts.  TrimRight
    of the last right-aligned item is applied to the item and its separator. *)
Fixpoint matrix_line (is_cell : bool) (sep : string) (items : list (string * widths * string)) : option string :=
  match items with
  | [] => Some ""
  | (ct, w, s) :: r =>
      let rightmost := match r with [] => true | _ => false end in
      match matrix_item ct (w_width w) rightmost is_cell (w_precis w) s with
      | None => None
      | Some x =>
          let x := sep ++ x in
          let x := if rightmost && IsNumericColType ct then trim_right_spaces x else x in
          match matrix_line is_cell " " r with
          | Some rest => Some (x ++ rest)
          | None => None
          end
      end
  end.

Fixpoint matrix_lines (cols : list (string * widths)) (rs : list (list string)) : option string :=
  match rs with
  | [] => Some ""
  | row :: r =>
      match matrix_line true "" (combine cols row) with
      | None => None
      | Some l => match matrix_lines cols r with Some rest => Some (l ++ newline ++ rest) | None => None end
      end
  end.

(** printMatrix, gotables.go:1311-1383; "" when a number cannot be read *)
Definition printMatrix (n : string) (cns cts : list string) (rs : list (list string)) : string :=
  match cns with
  | [] => name_line n
  | _ =>
      let cols := map (fun i => (nth i cts "", col_widths (nth i cns "") (nth i cts "") (map (fun row => nth i row "") rs)))
                      (seq 0 (List.length cns)) in
      match matrix_line false "" (combine cols cns), matrix_line false "" (combine cols cts), matrix_lines cols rs with
      | Some l1, Some l2, Some ls => name_line n ++ l1 ++ newline ++ l2 ++ newline ++ ls
      | _, _, _ => ""
      end
  end.

(** StringPadded and String, gotables.go:1394-1608 *)
Definition StringPadded (ip : Z -> bool) (h : heap) (t : table) : res string :=
  let! o := padded_rows ip h (firstn (List.length (cnames t)) (ctypes t)) (rows t) in
  match o with
  | None => Ok ""
  | Some rs =>
      if struct_shape t && (RowCount t <=? 1)%Z then printStruct h t
      else Ok (printMatrix (tname t) (cnames t) (ctypes t) rs)
  end.

(** ---------- table sets ---------- *)

(** A nil table prints as "". *)
Definition ref_text (f : table -> res string) (h : heap) (o : ref) : res string :=
  match o with Some p => f (tab h p) | None => Ok "" end.
(** TableSet.StringPadded (and String), gotables.go:300-322 *)
Definition TS_StringPadded (ip : Z -> bool) (h : heap) (s : tset) : res string :=
  let! ls := rmap (ref_text (StringPadded ip h) h) (ts_tables s) in
  Ok ((if ts_name s =? "" then "" else "[[" ++ ts_name s ++ "]]" ++ newline ++ newline)
      ++ String.concat newline ls).
(** TableSet.StringUnpadded, gotables.go:324-357: without the name of the set *)
Definition TS_StringUnpadded (ip : Z -> bool) (h : heap) (s : tset) : res string :=
  let! ls := rmap (ref_text (StringUnpadded ip h) h) (ts_tables s) in
  Ok (String.concat newline ls).
