(** Spec_Generate.v -- the fragment of Go in which the generated text is written: how such a
    text is read and what it does when it is called.

    A text that cannot be read, or that the Go compiler refuses because a name does not
    stand for what the text needs, has no meaning here ([None]). *)
From Coq Require Import ZArith NArith List String Ascii Bool SpecFloat.
From Verif Require Import Base Model_Names Model_Table Model_Lex Spec.
Import ListNotations.
Local Open Scope string_scope.
Local Open Scope list_scope.

(** ---------- words and lines ---------- *)

Definition keywords : list string :=
  ["break"; "default"; "func"; "interface"; "select"; "case"; "defer"; "go"; "map"; "struct"; "chan"; "else"; "goto";
   "package"; "switch"; "const"; "fallthrough"; "if"; "range"; "type"; "continue"; "for"; "import"; "return"; "var"].
(** an identifier of ASCII letters, digits and underscores *)
Definition identifier (s : string) : bool :=
  match s with
  | EmptyString => false
  | String c r => is_alpha_ c && forallb is_word (list_ascii_of_string r) && negb (str_in s keywords)
  end.

(** the longest start of [s] made of word characters, and the rest *)
Fixpoint word (s : string) : string * string :=
  match s with
  | EmptyString => ("", "")
  | String c r => if is_word c then let '(a, b) := word r in (String c a, b) else ("", s)
  end.
(** a string literal without escapes: its contents and what follows it *)
Definition literal (s : string) : option (string * string) :=
  match s with
  | String c r => if Ascii.eqb c dquote then
                    match until dquote r with Some (a, b) => if has bslash a then None else Some (a, b) | None => None end
                  else None
  | EmptyString => None
  end.

(** A line of Go: fixed text, an identifier, a string literal, or anything up to the end *)
Inductive pat := T (s : string) | Name | Literal | Rest.
Fixpoint scan (ps : list pat) (s : string) : option (list string) :=
  match ps with
  | [] => if s =? "" then Some [] else None
  | T l :: r => if String.prefix l s then scan r (drop (String.length l) s) else None
  | Name :: r => let '(a, b) := word s in if identifier a then option_map (cons a) (scan r b) else None
  | Literal :: r => match literal s with Some (a, b) => option_map (cons a) (scan r b) | None => None end
  | Rest :: _ => Some [s]
  end.

(** a []string literal: string literals separated by commas, up to the closing brace *)
Fixpoint literals (fuel : nat) (s : string) : option (list string) :=
  match fuel with
  | O => None
  | S k => match literal s with
           | Some (a, b) => if b =? "}" then Some [a] else
                            if String.prefix "," b then option_map (cons a) (literals k (drop 1 b)) else None
           | None => None
           end
  end.
Definition string_list (s : string) : option (list string) :=
  if s =? "[]string{}" then Some []
  else if String.prefix "[]string{" s then literals (String.length s) (drop 9 s) else None.

(** what follows the first end of comment *)
Fixpoint after_comment (s : string) : option string :=
  if String.prefix "*/" s then Some (drop 2 s)
  else match s with String _ r => after_comment r | EmptyString => None end.
(** the lines of a text that ends with a newline *)
Definition whole_lines (s : string) : option (list string) :=
  match rev (lines s) with l :: r => if l =? "" then Some (rev r) else None | [] => None end.
(** the lines of a text after the comment with which it begins *)
Definition source (s : string) : option (list string) :=
  if String.prefix "/*" s then
    match after_comment (drop 2 s) with
    | Some (String c r) => if Ascii.eqb c nl then whole_lines r else None
    | _ => None
    end
  else None.

Definition t1 : string := String (chr 9) "".
Definition t2 : string := t1 ++ t1.
Definition t3 : string := t1 ++ t2.

(** ---------- type NAME struct { fields } ---------- *)

Record decl := mkDecl { d_name : string; d_fields : list (string * string) }.
Fixpoint read_fields (ls : list string) : option (list (string * string)) :=
  match ls with
  | [] => None
  | l :: r =>
      if l =? "}" then match r with [] => Some [] | _ => None end
      else match scan [T t1; Name; T " "; Rest] l with
           | Some [f; ty] => option_map (cons (f, ty)) (read_fields r)
           | _ => None
           end
  end.
Definition read_decl (s : string) : option decl :=
  match source s with
  | Some (l :: r) => match scan [T "type "; Name; T " struct {"] l with
                     | Some [n] => option_map (mkDecl n) (read_fields r)
                     | _ => None
                     end
  | _ => None
  end.

(** The types a field of a program that imports gotables and time can have: these are the
    supported column types except "*Table" (there is no type Table in that program). *)
Definition field_type (ty : string) : bool := str_in ty all_types && negb (ty =? "*Table").

(** ---------- statements ---------- *)

Inductive stmt :=
| SGet (v m c : string)      (** v, err := table.m("c", rowIndex) *)
| SStore (a f v : string)    (** a[rowIndex].f = v *)
| SAppend                    (** err = table.AppendRow() *)
| SSet (m c f : string)      (** err = table.m("c", rowIndex, slice[rowIndex].f) *)
| SCheck.                    (** if err != nil { return nil, err } *)

Definition read_stmt (l : string) : option stmt :=
  if l =? (t2 ++ "err = table.AppendRow()")%string then Some SAppend
  else match scan [T (t2 ++ "err = table.")%string; Name; T "("; Literal; T ", rowIndex, slice[rowIndex]."; Name; T ")"] l with
  | Some [m; c; f] => Some (SSet m c f)
  | _ => match scan [T t2; Name; T ", err := table."; Name; T "("; Literal; T ", rowIndex)"] l with
         | Some [v; m; c] => Some (SGet v m c)
         | _ => match scan [T t2; Name; T "[rowIndex]."; Name; T " = "; Name] l with
                | Some [a; f; v] => Some (SStore a f v)
                | _ => None
                end
         end
  end.
(** the statements up to the end of the loop, and the lines that follow *)
Fixpoint read_body (ls : list string) : option (list stmt * list string) :=
  match ls with
  | [] => None
  | l :: r =>
      if l =? (t1 ++ "}")%string then Some ([], r)
      else if l =? "" then read_body r
      else if l =? (t2 ++ "if err != nil {")%string then
        match r with
        | l2 :: l3 :: r' =>
            if (l2 =? (t3 ++ "return nil, err")%string) && (l3 =? (t2 ++ "}")%string) then
              match read_body r' with Some (b, e) => Some (SCheck :: b, e) | None => None end
            else None
        | _ => None
        end
      else match read_stmt l with
           | Some s => match read_body r with Some (b, e) => Some (s :: b, e) | None => None end
           | None => None
           end
  end.

(** ---------- func NAME(table) ([]T, error) ---------- *)

Record from_func := mkFrom {
  ff_name : string; ff_elem : string;                     (** func name(table *gotables.Table) ([]elem, error) *)
  ff_var : string; ff_type : string; ff_make : string;    (** var v []type = make([]make, table.RowCount()) *)
  ff_body : list stmt;                                    (** for rowIndex := 0; rowIndex < table.RowCount(); rowIndex++ *)
  ff_ret : string }.                                      (** return v, nil *)
Definition read_from (s : string) : option from_func :=
  match source s with
  | Some (l1 :: l2 :: l3 :: l4 :: l5 :: l6 :: l7 :: l8 :: r) =>
      match scan [T "func "; Name; T "(table *gotables.Table) ([]"; Name; T ", error) {"] l1,
            scan [T (t1 ++ "if table == nil {")%string] l2, scan [T (t2 ++ "return nil, fmt.Errorf(")%string; Literal; T ")"] l3,
            scan [T (t1 ++ "}")%string] l4, scan [] l5,
            scan [T (t1 ++ "var ")%string; Name; T " []"; Name; T " = make([]"; Name; T ", table.RowCount())"] l6, scan [] l7,
            scan [T (t1 ++ "for rowIndex := 0; rowIndex < table.RowCount(); rowIndex++ {")%string] l8, read_body r with
      | Some [f; e], Some [], Some [_], Some [], Some [], Some [v; ty; mk], Some [], Some [], Some (b, [e1; e2; e3]) =>
          match scan [] e1, scan [T (t1 ++ "return ")%string; Name; T ", nil"] e2, scan [T "}"] e3 with
          | Some [], Some [x], Some [] => Some (mkFrom f e v ty mk b x)
          | _, _, _ => None
          end
      | _, _, _, _, _, _, _, _, _ => None
      end
  | _ => None
  end.

(** ---------- func NAME(slice []T) ( *gotables.Table, error) ---------- *)

Record to_func := mkTo {
  tf_name : string; tf_elem : string;                                   (** func name(slice []elem) ( *gotables.Table, error) *)
  tf_table : string; tf_cols : list string; tf_types : list string;     (** gotables.NewTableFromMetadata(table, cols, types) *)
  tf_body : list stmt }.                                                (** for rowIndex := 0; rowIndex < len(slice); rowIndex++ *)
Definition read_to (s : string) : option to_func :=
  match source s with
  | Some (l1 :: l2 :: l3 :: l4 :: l5 :: l6 :: l7 :: l8 :: l9 :: l10 :: l11 :: l12 :: l13 :: l14 :: l15 :: l16 :: l17 :: r) =>
      match scan [T "func "; Name; T "(slice []"; Name; T ") (*gotables.Table, error) {"] l1,
            scan [T (t1 ++ "if slice == nil {")%string] l2, scan [T (t2 ++ "return nil, fmt.Errorf(")%string; Literal; T ")"] l3,
            scan [T (t1 ++ "}")%string] l4, scan [] l5,
            scan [T (t1 ++ "var err error")%string] l6, scan [] l7,
            scan [T (t1 ++ "var table *gotables.Table")%string] l8,
            scan [T (t1 ++ "var tableName string = ")%string; Literal] l9,
            scan [T (t1 ++ "var colNames []string = ")%string; Rest] l10,
            scan [T (t1 ++ "var colTypes []string = ")%string; Rest] l11,
            scan [T (t1 ++ "table, err = gotables.NewTableFromMetadata(tableName, colNames, colTypes)")%string] l12 with
      | Some [f; e], Some [], Some [_], Some [], Some [], Some [], Some [], Some [], Some [n], Some [cs], Some [ts], Some [] =>
          match scan [T (t1 ++ "if err != nil {")%string] l13, scan [T (t2 ++ "return nil, err")%string] l14,
                scan [T (t1 ++ "}")%string] l15, scan [] l16,
                scan [T (t1 ++ "for rowIndex := 0; rowIndex < len(slice); rowIndex++ {")%string] l17, read_body r,
                string_list cs, string_list ts with
          | Some [], Some [], Some [], Some [], Some [], Some (b, [e1; e2; e3]), Some cns, Some cts =>
              match scan [] e1, scan [T (t1 ++ "return table, nil")%string] e2, scan [T "}"] e3 with
              | Some [], Some [], Some [] => Some (mkTo f e n cns cts b)
              | _, _, _ => None
              end
          | _, _, _, _, _, _, _, _ => None
          end
      | _, _, _, _, _, _, _, _, _, _, _, _ => None
      end
  | _ => None
  end.

(** ---------- names ---------- *)

(** What a name stands for *)
Inductive binding :=
| Builtin                       (** its predeclared meaning, or the package of that name *)
| TypeName                      (** the struct type *)
| TheTable | TheSlice           (** the variables of the function *)
| AnError (b : bool)            (** a variable of type error; [b]: it is not nil *)
| Var (ty : string) (v : value) (** a variable of a column type *).
Definition scope := list (string * binding).
Fixpoint in_scope (n : string) (s : scope) : option binding :=
  match s with [] => None | (m, b) :: r => if n =? m then Some b else in_scope n r end.
(** the innermost scope that declares the name decides; the blank identifier names nothing *)
Fixpoint lookup (n : string) (e : list scope) : option binding :=
  if n =? "_" then None
  else match e with [] => None | s :: r => match in_scope n s with Some b => Some b | None => lookup n r end end.
Definition builtin (e : list scope) (n : string) : bool := match lookup n e with Some Builtin => true | _ => false end.
Definition is_type (e : list scope) (n : string) : bool := match lookup n e with Some TypeName => true | _ => false end.
Definition universe : scope := map (fun n => (n, Builtin)) ["nil"; "error"; "string"; "make"; "len"; "fmt"; "gotables"].
Definition package (d : decl) : list scope := [[(d_name d, TypeName)]; universe].

(** the typed accessors of *Table (helpers.go:67-945, 1681-2498): the name after Get or Set, and the type *)
Definition accessors : list (string * string) :=
  [("ByteSlice", "[]byte"); ("Uint8Slice", "[]uint8"); ("Bool", "bool"); ("Byte", "byte"); ("Float32", "float32");
   ("Float64", "float64"); ("Int", "int"); ("Int16", "int16"); ("Int32", "int32"); ("Int64", "int64"); ("Int8", "int8");
   ("Rune", "rune"); ("String", "string"); ("Uint", "uint"); ("Uint16", "uint16"); ("Uint32", "uint32");
   ("Uint64", "uint64"); ("Uint8", "uint8"); ("Table", "*Table"); ("Time", "time.Time")].
Definition method (what m : string) : option string :=
  if String.prefix what m then assoc accessors (drop (String.length what) m) else None.

(** ---------- struct values ---------- *)

(** one value per field, in the order of the declaration *)
Definition go_struct := list value.
Fixpoint field (fs : list (string * string)) (f : string) : option (nat * string) :=
  match fs with
  | [] => None
  | (g, ty) :: r => if f =? g then Some (O, ty) else match field r f with Some (k, u) => Some (S k, u) | None => None end
  end.
(** the same Go type under two names *)
Definition same_type (a b : string) : bool := dyn_type a =? dyn_type b.
(** the Go zero value: a nil slice for the slice types *)
Definition go_zero (ty : string) : value :=
  if IsSliceColType ty then VBytes None else match zero_plain ty with Some v => v | None => VNil end.
Definition decl_ok (d : decl) : bool :=
  forallb (fun p => field_type (snd p)) (d_fields d).

(** ---------- calling the function that reads a table ---------- *)

Definition index (e : list scope) : option Z :=
  match lookup "rowIndex" e with Some (Var "int" (VInt KInt z)) => Some z | _ => None end.

(** One turn of the loop.  [e]: the scopes around it; [sc]: the scope of the loop body. *)
Fixpoint turn_from (d : decl) (t : table) (e : list scope) (sc : scope) (b : list stmt) (sl : list go_struct)
  : option (res (list go_struct)) :=
  match b with
  | [] => Some (Ok sl)
  | SGet v m c :: r =>
      if (v =? "err") || (v =? "_") then None
      else match in_scope v sc, lookup "table" (sc :: e), index (sc :: e), method "Get" m with
           | None, Some TheTable, Some z, Some ty =>
               match GetT ty t c z with
               | Ok x => turn_from d t e (("err", AnError false) :: (v, Var ty x) :: sc) r sl
               | Err => turn_from d t e (("err", AnError true) :: (v, Var ty (go_zero ty)) :: sc) r sl
               | Panic => Some Panic
               end
           | _, _, _, _ => None
           end
  | SCheck :: r =>
      match lookup "err" (sc :: e), builtin (sc :: e) "nil" with
      | Some (AnError b), true => if b then Some Err else turn_from d t e sc r sl
      | _, _ => None
      end
  | SStore a f v :: r =>
      match lookup a (sc :: e), index (sc :: e), lookup v (sc :: e), field (d_fields d) f with
      | Some TheSlice, Some z, Some (Var ty x), Some (k, fty) =>
          if (f =? "_") || negb (same_type ty fty) then None
          else match zidx z (List.length sl) with
               | Some i => match nth_error sl i with
                           | Some s => turn_from d t e sc r (upd sl i (upd s k x))
                           | None => Some Panic
                           end
               | None => Some Panic
               end
      | _, _, _, _ => None
      end
  | _ :: _ => None
  end.
Fixpoint loop_from (d : decl) (t : table) (e : list scope) (b : list stmt) (is : list nat) (sl : list go_struct)
  : option (res (list go_struct)) :=
  match is with
  | [] => Some (Ok sl)
  | i :: r =>
      match turn_from d t ([("rowIndex", Var "int" (VInt KInt (Z.of_nat i)))] :: e) [] b sl with
      | Some (Ok sl') => loop_from d t e b r sl'
      | o => o
      end
  end.
(** The call name(table): [None] stands for the nil *Table. *)
Definition call_from (d : decl) (f : from_func) (arg : option table) : option (res (list go_struct)) :=
  let pkg := package d in
  let fn := [("table", TheTable)] :: pkg in
  let env := [(ff_var f, TheSlice); ("table", TheTable)] :: pkg in
  if decl_ok d && builtin pkg "gotables" && builtin pkg "error" && is_type pkg (ff_elem f)
     && builtin fn "nil" && builtin fn "fmt" && builtin fn "make" && is_type fn (ff_type f) && is_type fn (ff_make f)
     && negb (str_in (ff_var f) ["table"; "_"]) && builtin env "nil" then
    match lookup (ff_ret f) env, lookup "table" ([("rowIndex", Var "int" (VInt KInt 0))] :: env) with
    | Some TheSlice, Some TheTable =>
        match arg with
        | None => Some Err
        | Some t => loop_from d t env (ff_body f) (seq 0 (List.length (rows t)))
                      (repeat (map (fun p => go_zero (snd p)) (d_fields d)) (List.length (rows t)))
        end
    | _, _ => None
    end
  else None.

(** ---------- calling the function that makes a table ---------- *)

Definition step {A} (m : M A) (t : table) : table * res A := run m 0 t.

(** One turn of the loop; [err]: the variable err is not nil. *)
Fixpoint turn_to (d : decl) (s : go_struct) (z : Z) (b : list stmt) (t : table) (err : bool) : option (res table) :=
  let go r (x : table * res unit) :=
    match x with
    | (t', Ok _) => turn_to d s z r t' false
    | (t', Err) => turn_to d s z r t' true
    | (_, Panic) => Some Panic
    end in
  match b with
  | [] => Some (Ok t)
  | SAppend :: r => go r (step AppendRow t)
  | SSet m c f :: r =>
      match method "Set" m, field (d_fields d) f with
      | Some ty, Some (k, fty) =>
          if (f =? "_") || negb (same_type ty fty) then None
          else match nth_error s k with Some x => go r (step (SetT ty c z x) t) | None => None end
      | _, _ => None
      end
  | SCheck :: r => if err then Some Err else turn_to d s z r t err
  | _ :: _ => None
  end.
Fixpoint loop_to (d : decl) (b : list stmt) (i : nat) (sl : list go_struct) (t : table) : option (res table) :=
  match sl with
  | [] => Some (Ok t)
  | s :: r => match turn_to d s (Z.of_nat i) b t false with Some (Ok t') => loop_to d b (S i) r t' | o => o end
  end.
(** The call name(slice): [None] stands for the nil slice. *)
Definition call_to (d : decl) (f : to_func) (arg : option (list go_struct)) : option (res table) :=
  let pkg := package d in
  if decl_ok d && forallb (builtin pkg) ["gotables"; "error"; "nil"; "fmt"; "string"; "len"] && is_type pkg (tf_elem f) then
    match arg with
    | None => Some Err
    | Some sl => match NewTableFromMetadata (tf_table f) (tf_cols f) (tf_types f) with
                 | Ok t => loop_to d (tf_body f) 0 sl t
                 | Err => Some Err
                 | Panic => Some Panic
                 end
    end
  else None.

(** ---------- the tables whose generated code works ---------- *)

(** Names that are Go identifiers of ASCII characters other than the blank identifier *)
Definition go_name (n : string) : Prop := identifier n = true /\ n <> "_".
(** Column types that have a field type and accessors of the generated names *)
Definition go_column (ct : string) : Prop := ct <> "*Table" /\ ct <> "time.Time".

(** a table for which all the names the generated texts need keep their meaning *)
Record go_table (t : table) : Prop := {
  gt_wf : wf_table t;
  gt_nil : is_nil t = false;
  gt_name : go_name (tname t);
  gt_names : Forall go_name (cnames t);
  gt_types : Forall go_column (ctypes t);
  gt_free : ~ In (tname t) ["nil"; "error"; "string"; "len"; "fmt"; "gotables"] }.
(** ... and for which the loop that reads a table works as well *)
Record readable_table (t : table) : Prop := {
  rt_table : go_table t;
  rt_free : ~ In (tname t) ["make"; "table"; "rowIndex"; "err"] /\ ~ In (tname t) (cnames t);
  rt_cols : Forall (fun cn => ~ In cn ["err"; "table"; "rowIndex"; "nil"]) (cnames t) }.

(** the struct type of a table *)
Definition type_of (t : table) : decl := mkDecl (tname t) (combine (cnames t) (ctypes t)).
(** a struct value of that type all of whose slices are not nil *)
Definition struct_value (t : table) (s : go_struct) : Prop := Forall2 cell_ok (ctypes t) s.
Definition no_nil_slice (s : go_struct) : Prop := ~ In (VBytes None) s.

(** the table [t] has every column of [src], in any order and under the same Go types *)
Definition has_columns_of (src t : table) : Prop :=
  forall i cn ct, nth_error (cnames src) i = Some cn -> nth_error (ctypes src) i = Some ct ->
  exists c ct', col_at t c cn /\ nth_error (ctypes t) (Z.to_nat c) = Some ct' /\ same_go_type ct ct'.
