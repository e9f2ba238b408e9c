(** Model_Generate.v -- generating Go source text from a table (generate.go).

    Every [buf.WriteString] of the code writes a piece of a line or whole lines; the model
    collects the lines and [out] ends each of them with a newline.  The time of day that
    the comment of the generated text shows is the parameter [now]; [ip] is
    strconv.IsPrint beyond ASCII (for the verb %q). *)
From Coq Require Import ZArith NArith List String Ascii Bool.
From Verif Require Import Base Model_Names Model_Table Model_Lex Model_Print Model_Copy.
Import ListNotations.
Local Open Scope string_scope.
Local Open Scope list_scope.

Definition tb : string := String (chr 9) "".
Definition out (ls : list string) : string := String.concat "" (map (fun l => (l ++ newline)%string) ls).

(** bytes.ToUpper of a single byte: a byte beyond ASCII is not UTF-8 and becomes the first
    byte of the encoding of RuneError. *)
Definition upper_byte (c : ascii) : ascii :=
  if between 97 122 c then chr (code c - 32) else if (128 <=? code c)%Z then chr 239 else c.

(** typeProper, generate.go:308-324 *)
Fixpoint type_proper (up : bool) (s : string) : string :=
  match s with
  | EmptyString => ""
  | String c r => if negb up && isLetter c then String (upper_byte c) (type_proper true r) else String c (type_proper up r)
  end.
Definition typeProper (s : string) : string := type_proper false s.

(** accessorName, getterName, setterName, generate.go:327-343 *)
Definition accessorName (ty : string) : string :=
  if String.prefix "[]" ty then (typeProper (drop 2 ty) ++ "Slice")%string else typeProper ty.
Definition getterName (ty : string) : string := ("Get" ++ accessorName ty)%string.
Definition setterName (ty : string) : string := ("Set" ++ accessorName ty)%string.

(** The loops over colIndex, generate.go:62-76, 247-263, 535-551: ColName and
    ColTypeByColIndex of each column, and the lines written for it *)
Definition each_column (t : table) (f : string -> string -> list string) : res (list (list string)) :=
  rmap (fun ci => let! cn := ColName t ci in let! ct := ColTypeByColIndex t ci in Ok (f cn ct)) (zseq (List.length (cnames t))).

(** The groups of lines, with the separator "\n" between them: generate.go:246, 256, 262
    and 534, 544, 550 *)
Fixpoint separated (gs : list (list string)) : list string :=
  match gs with
  | [] => []
  | [g] => g
  | g :: r => g ++ "" :: separated r
  end.

(** The comment in front, generate.go:52-57, 231-236, 498-503 *)
Definition comment (now what : string) : list string :=
  ["/*"; (tb ++ "Automatically generated source code. DO NOT MODIFY. Generated " ++ now ++ ".")%string; ""; (tb ++ what)%string; "*/"].

(** GenerateTypeStruct, generate.go:44-82.  The receiver is not nil. *)
Definition GenerateTypeStruct (now : string) (t : table) : res string :=
  let n := tname t in
  let! fs := each_column t (fun cn ct => [(tb ++ cn ++ " " ++ ct)%string]) in
  Ok (out (comment now ("type " ++ n ++ " struct generated from *gotables.Table [" ++ n ++ "] for including in your code.")%string
           ++ [("type " ++ n ++ " struct {")%string] ++ List.concat fs ++ ["}"])).

(** The three lines "if err != nil { return nil, err }" at an indentation *)
Definition if_err (ind : string) : list string :=
  [(ind ++ "if err != nil {")%string; (ind ++ tb ++ "return nil, err")%string; (ind ++ "}")%string].
Definition quoted (s : string) : string := String dquote (s ++ String dquote "").

(** GenerateTypeStructSliceFromTable, generate.go:221-274.  The receiver is not nil. *)
Definition GenerateTypeStructSliceFromTable (ip : Z -> bool) (now : string) (t : table) : res string :=
  let n := tname t in
  let fn := ("TypeStructSliceFromTable_" ++ n)%string in
  let! gs := each_column t (fun cn ct =>
      [(tb ++ tb ++ cn ++ ", err := table." ++ getterName ct ++ "(" ++ Quote ip cn ++ ", rowIndex)")%string]
      ++ if_err (tb ++ tb)
      ++ [(tb ++ tb ++ n ++ "[rowIndex]." ++ cn ++ " = " ++ cn)%string]) in
  Ok (out (comment now ("Generate a slice of type " ++ n ++ " struct from *gotables.Table [" ++ n ++ "] for including in your code.")%string
           ++ [("func " ++ fn ++ "(table *gotables.Table) ([]" ++ n ++ ", error) {")%string;
               (tb ++ "if table == nil {")%string;
               (tb ++ tb ++ "return nil, fmt.Errorf(" ++ quoted (fn ++ "(slice []" ++ n ++ ") slice is <nil>") ++ ")")%string;
               (tb ++ "}")%string; "";
               (tb ++ "var " ++ n ++ " []" ++ n ++ " = make([]" ++ n ++ ", table.RowCount())")%string; "";
               (tb ++ "for rowIndex := 0; rowIndex < table.RowCount(); rowIndex++ {")%string]
           ++ separated gs
           ++ [(tb ++ "}")%string; ""; (tb ++ "return " ++ n ++ ", nil")%string; "}"])).

(** stringSliceToLiteral, generate.go:572-587 *)
Definition stringSliceToLiteral (ip : Z -> bool) (l : list string) : string :=
  ("[]string{" ++ String.concat "," (map (Quote ip) l) ++ "}")%string.

(** GenerateTypeStructSliceToTable, generate.go:487-561.  The receiver is not nil. *)
Definition GenerateTypeStructSliceToTable (ip : Z -> bool) (now : string) (t : table) : res string :=
  let n := tname t in
  let fn := ("TypeStructSliceToTable_" ++ n)%string in
  let! (cns, cts) := GetColInfoAsSlices t in
  let! gs := each_column t (fun cn ct =>
      [(tb ++ tb ++ "err = table." ++ setterName ct ++ "(" ++ Quote ip cn ++ ", rowIndex, slice[rowIndex]." ++ cn ++ ")")%string]
      ++ if_err (tb ++ tb)) in
  Ok (out (comment now ("Generate a gotables Table [" ++ n ++ "] from a slice of type struct []" ++ n ++ " for including in your code.")%string
           ++ [("func " ++ fn ++ "(slice []" ++ n ++ ") (*gotables.Table, error) {")%string;
               (tb ++ "if slice == nil {")%string;
               (tb ++ tb ++ "return nil, fmt.Errorf(" ++ quoted (fn ++ "(slice []" ++ n ++ ") slice is <nil>") ++ ")")%string;
               (tb ++ "}")%string; "";
               (tb ++ "var err error")%string; "";
               (tb ++ "var table *gotables.Table")%string;
               (tb ++ "var tableName string = " ++ Quote ip n)%string;
               (tb ++ "var colNames []string = " ++ stringSliceToLiteral ip cns)%string;
               (tb ++ "var colTypes []string = " ++ stringSliceToLiteral ip cts)%string;
               (tb ++ "table, err = gotables.NewTableFromMetadata(tableName, colNames, colTypes)")%string]
           ++ if_err tb
           ++ [""; (tb ++ "for rowIndex := 0; rowIndex < len(slice); rowIndex++ {")%string;
               (tb ++ tb ++ "err = table.AppendRow()")%string]
           ++ if_err (tb ++ tb)
           ++ [""]
           ++ separated gs
           ++ [(tb ++ "}")%string; ""; (tb ++ "return table, nil")%string; "}"])).
