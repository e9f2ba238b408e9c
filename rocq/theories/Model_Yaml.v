(** Model_Yaml.v -- table sets as YAML (yaml.go).  The library gopkg.in/yaml.v3 itself is not
    modelled: it is a parameter, and what is assumed of it is stated in Spec_Yaml.v. *)
From Coq Require Import ZArith NArith List String Ascii Bool SpecFloat.
From Verif Require Import Base Model_Names Model_Table Model_Sort Model_Copy Model_Ops Model_Heap Model_TableSet
  Model_Lex Model_Float Model_Time Model_Parser Model_Print Model_Json.
Import ListNotations.
Local Open Scope list_scope.
Local Open Scope string_scope.

(** The Go values that GetTableSetAsMap builds: a cell value that is not a table, a slice, a map
    with string keys (its entries in any order; no key twice). *)
Inductive any :=
| AVal (v : value)
| AList (l : list any)
| AMap (m : list (string * any)).

(** The Go values that yaml.Unmarshal stores in an interface{}: nil, bool, int, uint64 (an integer
    that is too large for an int), float64, string, time.Time, []interface{},
    map[string]interface{}, and any other (a map with other keys). *)
Inductive ydoc :=
| YNull
| YBool (b : bool)
| YInt (z : Z)
| YUint (z : Z)
| YFloat (f : spec_float)
| YStr (s : string)
| YTime (t : time)
| YList (l : list ydoc)
| YMap (m : list (string * ydoc))
| YOther.

(** yaml.Marshal and yaml.Unmarshal, as used here.  [no_text] is the empty string. *)
Record yaml := mkYaml {
  text_t : Type;
  no_text : text_t;
  is_no_text : text_t -> bool;
  marshal : list (string * any) -> res text_t;
  unmarshal : text_t -> res (list (string * ydoc)) }.

(** ---------- writing ---------- *)

(** One element of the metadata, yaml.go:448-460; fmt.Sprintf with %q puts the type *Table in
    quotes. *)
Definition yaml_column (t : table) (ci : Z) : res any :=
  match znth (cnames t) ci, znth (ctypes t) ci with
  | Some cn, Some ct => Ok (AMap [(cn, AVal (VString (if ct =? "*Table" then in_quotes ct else ct)))])
  | _, _ => Panic
  end.

(** visitCell, yaml.go:476-546.  [nested] is getTableAsMap on the nested table.  Walk on a nil
    table is an error. *)
Definition yaml_cell (nested : ptr -> res (list (string * any))) (p : ptr) (t : table) (ri ci : Z) : res any :=
  let! info := GetCellInfoByColIndex p t ci ri in
  let ct := ci_type info in
  if ct =? "*Table" then
    let! o := GetTableByColIndex t ci ri in
    match o with
    | None => Err
    | Some q => let! m := nested q in Ok (AMap m)
    end
  else if str_in ct all_types then let! v := GetTByColIndex ct t ci ri in Ok (AVal v)
  else Err.

(** getTableAsMap, yaml.go:427-556, with the loops of Walk (tree.go:75-194, no walk of nested
    tables) written out.  There is no check for tables met before: [fuel] bounds the depth of
    the recursion, and running out of it stands for the stack overflow of an endless Go
    recursion. *)
Fixpoint getTableAsMap (fuel : nat) (h : heap) (p : ptr) : res (list (string * any)) :=
  match fuel with
  | O => Panic
  | S fuel' =>
      let t := tab h p in
      let! meta := rmap (yaml_column t) (zseq (List.length (cnames t))) in
      let! data := rmap (fun ri =>
            let! cells := rmap (yaml_cell (getTableAsMap fuel' h) p t ri) (zseq (List.length (cnames t))) in
            Ok (AList cells)) (zseq (List.length (rows t))) in
      Ok (([("tableName", AVal (VString (tname t))); ("data", AList data)]
          ++ (if struct_shape t then [("isStructShape", AVal (VBool true))] else [])
          ++ [("metadata", AList meta)])%list)
  end.

(** GetTableSetAsMap, yaml.go:394-425 *)
Definition GetTableSetAsMap (fuel : nat) (h : heap) (s : tset) : res (list (string * any)) :=
  let! ts := rmap (fun i =>
      let! o := GetTableByTableIndex s i in
      match o with
      | None => Err
      | Some p => let! m := getTableAsMap fuel h p in Ok (AMap m)
      end) (zseq (List.length (ts_tables s))) in
  Ok [("tableSetName", AVal (VString (ts_name s))); ("tables", AList ts)].

(** GetTableSetAsYAML, yaml.go:371-392, for a set that is not nil: an error of GetTableSetAsMap or
    of yaml.Marshal is dropped, and the result is the empty string and no error. *)
Definition GetTableSetAsYAML (Y : yaml) (fuel : nat) (h : heap) (s : tset) : res (text_t Y) :=
  match GetTableSetAsMap fuel h s with
  | Ok m => match marshal Y m with Ok x => Ok x | Err => Ok (no_text Y) | Panic => Panic end
  | Err => Ok (no_text Y)
  | Panic => Panic
  end.

(** ---------- reading ---------- *)

Fixpoint yget (m : list (string * ydoc)) (k : string) : option ydoc :=
  match m with
  | [] => None
  | (k', v) :: r => if k' =? k then Some v else yget r k
  end.

(** trimQuote, yaml.go:594-604 *)
Definition last_char (s : string) : option ascii :=
  match String.length s with O => None | S n => String.get n s end.
Definition trimQuote (s : string) : string :=
  let s := match s with String c r => if Ascii.eqb c dquote then r else s | EmptyString => s end in
  match last_char s with
  | Some c => if Ascii.eqb c dquote then substring 0 (String.length s - 1) s else s
  | None => s
  end.

(** float32(x) for an int x *)
Definition float32_of_int (z : Z) : spec_float :=
  match nearest F32 (z <? 0)%Z (Z.abs z) 1 with Some f => f | None => S754_infinity (z <? 0)%Z end.

(** A type assertion on a value that has not the type *)
Definition asserted : list string :=
  ["byte"; "uint"; "uint16"; "uint32"; "uint64"; "int8"; "int16"; "int64"; "*Table"].

(** One cell, yaml.go:199-362: [y] goes to column [ci] of row [ri].  [table] reads a nested table.
    The inner switch of case interface{} (yaml.go:275-345) is reached by uint64 values, slices
    and maps. *)
Definition set_yaml (table : list (string * ydoc) -> HM ptr) (p : ptr) (ci ri : Z) (y : ydoc) : HM unit :=
  let set vt v := on_heap p (SetTByColIndex vt ci ri v) in
  let coltype : HM string := fun h => (h, match znth (ctypes (tab h p)) ci with Some ct => Ok ct | None => Panic end) in
  match y with
  | YBool b => set "bool" (VBool b)
  | YStr s => set "string" (VString s)
  | YTime t => set "time.Time" (VTime t)
  | YInt z =>
      let^ ct := coltype in
      match (if ct =? "rune" then Some KInt32 else int_kind ct) with
      | Some k => set ct (VInt k (into_range k z))
      | None => if ct =? "float32" then set ct (VFloat32 (float32_of_int z))
                else if ct =? "time.Time" then hlift Panic
                else hlift Err
      end
  | YFloat f =>
      let^ ct := coltype in
      if ct =? "float32" then set ct (VFloat32 (float32_of f))
      else if ct =? "float64" then set ct (VFloat64 f)
      else hlift Err
  | YNull => let^ _ := coltype in hlift Err
  | YUint z =>
      let^ ct := coltype in
      if ct =? "uint" then set ct (VInt KUint z)
      else if ct =? "uint64" then set ct (VInt KUint64 z)
      else if str_in ct asserted then hlift Panic
      else if (ct =? "[]byte") || (ct =? "[]uint8") then set ct (VBytes None)
      else hlift Err
  | YList l =>
      let^ ct := coltype in
      if str_in ct asserted then hlift Panic
      else if (ct =? "[]byte") || (ct =? "[]uint8") then
        let^ bs := hlift (rmap (fun y => match y with YInt z => Ok (chr (into_range KUint8 z)) | _ => Panic end) l) in
        set ct (VBytes (Some bs))
      else hlift Err
  | YMap m =>
      let^ ct := coltype in
      if ct =? "*Table" then let^ q := table m in SetTableByColIndex p ci ri (Some q)
      else if str_in ct asserted then hlift Panic
      else if (ct =? "[]byte") || (ct =? "[]uint8") then set ct (VBytes None)
      else hlift Err
  | YOther =>
      let^ ct := coltype in
      if str_in ct asserted then hlift Panic
      else if (ct =? "[]byte") || (ct =? "[]uint8") then set ct (VBytes None)
      else hlift Err
  end.

(** One element of the metadata, yaml.go:130-150.  Simplification: of several entries the last
    one counts; Go visits the entries of a map in no fixed order. *)
Definition add_yaml_column (p : ptr) (y : ydoc) : HM unit :=
  match y with
  | YMap m => match last m ("", YNull) with
              | (cn, YStr ct) => on_heap p (AppendCol cn (trimQuote ct))
              | _ => hlift Err
              end
  | _ => hlift Panic
  end.

(** One row, yaml.go:192-366 *)
Definition add_yaml_row (table : list (string * ydoc) -> HM ptr) (p : ptr) (ri : Z) (cells : list ydoc) : HM unit :=
  let^ _ := on_heap p AppendRow in
  hfor (numbered cells) (fun c => set_yaml table p (fst c) ri (snd c)).

(** The rows of a data element, yaml.go:155-190: none if there is no slice *)
Definition yaml_rows (m : list (string * ydoc)) : res (list (list ydoc)) :=
  match yget m "data" with
  | Some (YList l) => rmap (fun y => match y with YList cells => Ok cells | _ => Panic end) l
  | _ => Ok []
  end.

(** newTableFromYAML_recursive, yaml.go:87-369.  [fuel] bounds the depth of the recursion; a
    table nested in [m] is nested in the document less deep than [m]. *)
Fixpoint newTableFromYAML_recursive (fuel : nat) (m : list (string * ydoc)) : HM ptr :=
  match fuel with
  | O => hlift Panic
  | S fuel' =>
      match yget m "tableName" with
      | Some (YStr n) =>
          if n =? "" then new_tab (ret tt)
          else
            let^ p := new_tab (SetName n) in
            let^ _ := match yget m "isStructShape" with
                      | Some (YBool b) => on_heap p (SetStructShape b)
                      | _ => hret tt
                      end in
            let^ meta := hlift (match yget m "metadata" with Some (YList l) => Ok l | _ => Err end) in
            let^ _ := hfor meta (add_yaml_column p) in
            let^ data := hlift (yaml_rows m) in
            let^ _ := hfor (numbered data) (fun r => add_yaml_row (newTableFromYAML_recursive fuel') p (fst r) (snd r)) in
            hret p
      | _ => hlift Err
      end
  end.

(** How deep slices and maps are nested in a value *)
Fixpoint ydepth (y : ydoc) : nat :=
  match y with
  | YList l => S (fold_right (fun x n => Nat.max (ydepth x) n) 0%nat l)
  | YMap m => S (fold_right (fun x n => Nat.max (ydepth (snd x)) n) 0%nat m)
  | _ => 0%nat
  end.

(** The loop over the tables, yaml.go:66-82 *)
Fixpoint tables_from_yaml (l : list ydoc) (s : tset) : HM tset :=
  match l with
  | [] => hret s
  | YMap m :: r =>
      let^ p := newTableFromYAML_recursive (S (ydepth (YMap m))) m in
      let^ s := fun h => let '(s', x) := AppendTable h s (Some p) in (h, let! _ := x in Ok s') in
      tables_from_yaml r s
  | _ :: _ => hlift Panic
  end.

(** NewTableSetFromYAML, yaml.go:16-85.  Without tables the type assertion panics before the test
    whether there are any.  Tables made by a failing call are garbage. *)
Definition NewTableSetFromYAML (Y : yaml) (x : text_t Y) : HM tset :=
  if is_no_text Y x then hlift Err
  else
    let^ m := hlift (unmarshal Y x) in
    match yget m "tableSetName" with
    | Some (YStr n) =>
        match yget m "tables" with
        | Some (YList l) => tables_from_yaml l (NewTableSet n)
        | _ => hlift Panic
        end
    | _ => hlift Err
    end.
