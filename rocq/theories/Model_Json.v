(** Model_Json.v -- tables and table sets as JSON (json.go), with the part of encoding/json
    that it uses. *)
From Coq Require Import ZArith NArith List String Ascii Bool SpecFloat.
From Verif Require Import Base Model_Names Model_Table Model_Sort Model_Copy Model_Ops Model_Heap Model_TableSet
  Model_Lex Model_Float Model_Time Model_Parser Model_Print.
Import ListNotations.
Local Open Scope list_scope.
Local Open Scope string_scope.

(** ---------- writing ---------- *)

(** replaceSpaces.ReplaceAllString(s, ","), json.go:21 and 181 *)
Fixpoint spaces_to_commas (s : string) : string :=
  match s with
  | EmptyString => ""
  | String c r => String (if Ascii.eqb c " " then "," else c)%char (spaces_to_commas r)
  end.

(** Call [f] on each element; the tables already written are handed along. *)
Fixpoint write_each {A} (f : A -> list ptr -> res (string * list ptr)) (l : list A) (seen : list ptr)
    : res (list string * list ptr) :=
  match l with
  | [] => Ok ([], seen)
  | x :: r => let! (s, seen) := f x seen in
              let! (ss, seen) := write_each f r seen in
              Ok (s :: ss, seen)
  end.

Definition in_quotes (s : string) : string := String dquote (s ++ String dquote "").

(** One cell, json.go:137-226.  [write] writes a nested table.  Simplification: an int32 in a
    column that is neither int32 nor rune, which no table has, is an error here; the code
    writes a message into the JSON text. *)
Definition json_cell (ip : Z -> bool) (h : heap) (write : ptr -> list ptr -> res (string * list ptr))
    (t : table) (ri ci : Z) (seen : list ptr) : res (string * list ptr) :=
  let text := GetValAsStringByColIndex h t ci ri in
  let! cn := match znth (cnames t) ci with Some cn => Ok cn | None => Panic end in
  let! v := GetValByColIndex t ci ri in
  let! (s, seen) :=
    match v with
    | VString s => Ok (Quote ip s, seen)
    | VInt KInt32 _ =>
        let! s := text in
        match znth (ctypes t) ci with
        | None => Panic
        | Some ct => if ct =? "int32" then Ok (s, seen)
                     else if ct =? "rune" then Ok (Quote ip s, seen) else Err
        end
    | VBool _ | VInt _ _ | VFloat32 _ | VFloat64 _ => let! s := text in Ok (s, seen)
    | VBytes _ => let! s := text in Ok (spaces_to_commas s, seen)
    | VTable _ =>
        let! o := GetTableByColIndex t ci ri in
        match o with
        | None => Err
        | Some q =>
            if in_set q seen then Err
            else if is_nil (tab h q) then Ok ("null", seen)
            else let! (s, seen) := write q seen in Ok ("{" ++ s ++ "}", seen)
        end
    | VTime tm => Ok (in_quotes (time_text tm), seen)
    | VNil | VOther _ => Ok (in_quotes "TYPE UNKNOWN", seen)
    end in
  Ok ("{" ++ Quote ip cn ++ ":" ++ s ++ "}", seen).

(** getTableAsJSON_recursive, json.go:93-240.  [seen] is refMap, to which a table is added when
    its text begins.  [fuel] bounds the depth of the recursion; every table entered is new in
    [seen], so the number of tables is enough (Props_Json). *)
Fixpoint getTableAsJSON_recursive (fuel : nat) (ip : Z -> bool) (h : heap) (p : ptr) (seen : list ptr)
    : res (string * list ptr) :=
  match fuel with
  | O => Panic
  | S fuel' =>
      let t := tab h p in
      let! meta := rmap (fun ci => match znth (cnames t) ci, znth (ctypes t) ci with
                                   | Some cn, Some ct => Ok ("{" ++ in_quotes cn ++ ":" ++ in_quotes ct ++ "}")
                                   | _, _ => Panic
                                   end) (zseq (List.length (cnames t))) in
      let! (data, seen) :=
        write_each (fun ri seen =>
            let! (cells, seen) := write_each (json_cell ip h (getTableAsJSON_recursive fuel' ip h) t ri)
                                             (zseq (List.length (cnames t))) seen in
            Ok ("[" ++ String.concat "," cells ++ "]", seen))
          (zseq (List.length (rows t))) (p :: seen) in
      Ok (in_quotes "tableName" ++ ":" ++ Quote ip (tname t) ++ ","
          ++ (if struct_shape t then in_quotes "isStructShape" ++ ":true," else "")
          ++ in_quotes "metadata" ++ ":[" ++ String.concat "," meta ++ "],"
          ++ in_quotes "data" ++ ":[" ++ String.concat "," data ++ "]", seen)
  end.

(** getTableAsJSON_private, json.go:68-91 *)
Definition getTableAsJSON_private (ip : Z -> bool) (h : heap) (o : ref) : res string :=
  match o with
  | None => Err
  | Some p => let! (s, _) := getTableAsJSON_recursive (S (List.length h)) ip h p [] in Ok ("{" ++ s ++ "}")
  end.

(** GetTableSetAsJSON, json.go:524-563 *)
Definition GetTableSetAsJSON (ip : Z -> bool) (h : heap) (s : tset) : res string :=
  let! ts := rmap (fun i => let! o := GetTableByTableIndex s i in getTableAsJSON_private ip h o)
                  (zseq (List.length (ts_tables s))) in
  Ok ("{" ++ in_quotes "tableSetName" ++ ":" ++ Quote ip (ts_name s) ++ ","
      ++ in_quotes "tables" ++ ":[" ++ String.concat "," ts ++ "]}").

(** GetTableAsJSON, json.go:43-66 *)
Definition GetTableAsJSON (ip : Z -> bool) (h : heap) (o : ref) : res string :=
  match o with
  | None => Err
  | Some p => match AppendTable h (NewTableSet "") (Some p) with
              | (s, Ok _) => GetTableSetAsJSON ip h s
              | (_, Err) => Err
              | (_, Panic) => Panic
              end
  end.

(** ---------- JSON values (encoding/json) ---------- *)

(** What json.Decoder with UseNumber stores in an interface{}: a number is its text.  The members
    of an object are in the order of their first appearance. *)
Inductive json :=
| JNull
| JBool (b : bool)
| JNum (text : string)
| JStr (s : string)
| JArr (l : list json)
| JObj (m : list (string * json)).

(** Store in a map: a key that is there already gets the new value. *)
Fixpoint jput (k : string) (v : json) (m : list (string * json)) : list (string * json) :=
  match m with
  | [] => [(k, v)]
  | (k', v') :: r => if k' =? k then (k, v) :: r else (k', v') :: jput k v r
  end.
Fixpoint jget (m : list (string * json)) (k : string) : option json :=
  match m with
  | [] => None
  | (k', v) :: r => if k' =? k then Some v else jget r k
  end.

(** White space between tokens *)
Definition json_space (c : ascii) : bool := one_of (String " " (String (chr 9) (String (chr 10) (String (chr 13) "")))) c.
Definition skip (s : string) : string := trim_left json_space s.

(** The escapes of one character *)
Definition json_escape (c : ascii) : option Z :=
  if Ascii.eqb c dquote then Some 34%Z else if Ascii.eqb c bslash then Some 92%Z
  else if Ascii.eqb c "/" then Some 47%Z else if Ascii.eqb c "b" then Some 8%Z
  else if Ascii.eqb c "f" then Some 12%Z else if Ascii.eqb c "n" then Some 10%Z
  else if Ascii.eqb c "r" then Some 13%Z else if Ascii.eqb c "t" then Some 9%Z
  else None.

(** getu4 of encoding/json: a backslash, u and four hexadecimal digits *)
Definition getu4 (s : string) : option (Z * string) :=
  match s with
  | String b (String u r) => if Ascii.eqb b bslash && Ascii.eqb u "u" then unhex_n 4 0 r else None
  | _ => None
  end.
Definition high_surrogate (z : Z) : bool := ((55296 <=? z) && (z <? 56320))%Z.
Definition low_surrogate (z : Z) : bool := ((56320 <=? z) && (z <? 57344))%Z.

(** A string from after its opening quote: the value and the text after the closing quote.
    Bytes that are not UTF-8 and lone surrogates become RuneError. *)
Fixpoint json_string (fuel : nat) (s : string) : option (string * string) :=
  match fuel with
  | O => None
  | S k =>
      let add x r := match json_string k r with Some (a, b) => Some (x ++ a, b) | None => None end in
      match s with
      | EmptyString => None
      | String c r =>
          if Ascii.eqb c dquote then Some ("", r)
          else if (code c <? 32)%Z then None
          else if Ascii.eqb c bslash then
            match getu4 s with
            | Some (v, r') =>
                if high_surrogate v then
                  match getu4 r' with
                  | Some (w, r'') =>
                      if low_surrogate w then add (encode ((v - 55296) * 1024 + (w - 56320) + 65536)%Z) r''
                      else add (encode RuneError) r'
                  | None => add (encode RuneError) r'
                  end
                else add (encode v) r'
            | None =>
                match r with
                | String e r' => match json_escape e with Some z => add (bytes [z]) r' | None => None end
                | EmptyString => None
                end
            end
          else match decode s with Some (z, w) => add (encode z) (drop w s) | None => None end
      end
  end.

(** A number: its text and the rest.  A leading zero stands alone; a point and an exponent need
    digits. *)
Definition json_number (s : string) : option (string * string) :=
  let '(sign, r) := match s with
                    | String c r => if Ascii.eqb c "-" then ("-", r) else ("", s)
                    | EmptyString => ("", s)
                    end in
  let '(a, r) := span is_dec r in
  let whole := match a with
               | EmptyString => false
               | String c a' => negb (Ascii.eqb c "0") || (a' =? "")
               end in
  if negb whole then None
  else
    match match r with
          | String c r' => if Ascii.eqb c "." then
                             match span is_dec r' with
                             | (String d ds, r'') => Some (String "." (String d ds), r'')
                             | _ => None
                             end
                           else Some ("", r)
          | EmptyString => Some ("", r)
          end with
    | None => None
    | Some (f, r) =>
        match match r with
              | String c r' => if one_of "eE" c then
                                 let '(sg, r') := match r' with
                                                  | String p r'' => if one_of "+-" p then (String p "", r'') else ("", r')
                                                  | EmptyString => ("", r')
                                                  end in
                                 match span is_dec r' with
                                 | (String d ds, r'') => Some (String c (sg ++ String d ds), r'')
                                 | _ => None
                                 end
                               else Some ("", r)
              | EmptyString => Some ("", r)
              end with
        | None => None
        | Some (e, r) => Some (sign ++ a ++ f ++ e, r)
        end
    end.

(** The elements of an array up to its closing bracket *)
Fixpoint json_elements (value : string -> option (json * string)) (fuel : nat) (s : string) : option (list json * string) :=
  match fuel with
  | O => None
  | S k =>
      match value (skip s) with
      | None => None
      | Some (j, r) =>
          match skip r with
          | EmptyString => None
          | String c r =>
              if Ascii.eqb c "]" then Some ([j], r)
              else if Ascii.eqb c "," then
                match json_elements value k r with Some (js, r) => Some (j :: js, r) | None => None end
              else None
          end
      end
  end.
Definition json_array (value : string -> option (json * string)) (s : string) : option (json * string) :=
  match skip s with
  | EmptyString => None
  | String c r => if Ascii.eqb c "]" then Some (JArr [], r)
                  else match json_elements value (String.length s) s with
                       | Some (js, r) => Some (JArr js, r)
                       | None => None
                       end
  end.

(** The members of an object up to its closing brace *)
Fixpoint json_members (value : string -> option (json * string)) (fuel : nat) (s : string) (m : list (string * json))
    : option (list (string * json) * string) :=
  match fuel with
  | O => None
  | S f =>
      match skip s with
      | EmptyString => None
      | String q r =>
          if negb (Ascii.eqb q dquote) then None
          else
          match json_string (S (String.length r)) r with
          | None => None
          | Some (k, r) =>
              match skip r with
              | EmptyString => None
              | String c r =>
                  if negb (Ascii.eqb c ":") then None
                  else
                  match value (skip r) with
                  | None => None
                  | Some (j, r) =>
                      match skip r with
                      | EmptyString => None
                      | String c r =>
                          if Ascii.eqb c "}" then Some (jput k j m, r)
                          else if Ascii.eqb c "," then json_members value f r (jput k j m)
                          else None
                      end
                  end
              end
          end
      end
  end.
Definition json_object (value : string -> option (json * string)) (s : string) : option (json * string) :=
  match skip s with
  | EmptyString => None
  | String c r => if Ascii.eqb c "}" then Some (JObj [], r)
                  else match json_members value (String.length s) s [] with
                       | Some (m, r) => Some (JObj m, r)
                       | None => None
                       end
  end.

(** A value that starts here; [depth] is how many arrays and objects may still be opened inside
    each other. *)
Fixpoint json_value (depth : nat) (s : string) : option (json * string) :=
  match s with
  | EmptyString => None
  | String c r =>
      if Ascii.eqb c dquote then
        match json_string (S (String.length r)) r with Some (x, r) => Some (JStr x, r) | None => None end
      else if Ascii.eqb c "[" then match depth with O => None | S d => json_array (json_value d) r end
      else if Ascii.eqb c "{" then match depth with O => None | S d => json_object (json_value d) r end
      else if String.prefix "true" s then Some (JBool true, drop 4 s)
      else if String.prefix "false" s then Some (JBool false, drop 5 s)
      else if String.prefix "null" s then Some (JNull, drop 4 s)
      else match json_number s with Some (t, r) => Some (JNum t, r) | None => None end
  end.

(** maxNestingDepth of encoding/json (as of Go 1.15) *)
Definition max_depth : nat := Z.to_nat 10000.

(** decoder.Decode(&jsonMap) with UseNumber: the first value of the text, which must be an object
    (null leaves the map empty); what follows it is not read. *)
Definition json_decode (s : string) : option (list (string * json)) :=
  match json_value max_depth (skip s) with
  | Some (JObj m, _) => Some m
  | Some (JNull, _) => Some []
  | _ => None
  end.

(** ---------- reading tables ---------- *)

(** time.Parse(time.RFC3339, s): seconds may have a fraction, of which nine digits count.
    Simplification: Go also takes one digit for the hour and a comma before the fraction;
    here these are errors. *)
Definition fraction (s : string) : option (Z * string) :=
  match s with
  | String c r =>
      if Ascii.eqb c "." then
        match span is_dec r with
        | (EmptyString, _) => None
        | (d, r) => Some (dec_val (substring 0 9 (d ++ "00000000")), r)
        end
      else Some (0%Z, s)
  | EmptyString => Some (0%Z, s)
  end.
Definition time_of_text (s : string) : option time :=
  match field 4 "-" s with None => None | Some (y, s) =>
  match field 2 "-" s with None => None | Some (mo, s) =>
  match field 2 "T" s with None => None | Some (d, s) =>
  match field 2 ":" s with None => None | Some (h, s) =>
  match field 2 ":" s with None => None | Some (mi, s) =>
  match field 2 "" s with None => None | Some (sec, s) =>
  match fraction s with None => None | Some (ns, s) =>
  match time_zone s with
  | Some (zh, zm, zneg, EmptyString) => parse_time (mkTF y mo d h mi sec ns zh zm zneg)
  | _ => None
  end end end end end end end end.

(** A conversion of a float64 to an integer type: towards zero if the result fits.  Otherwise Go
    does not say what it is: the parameter [wild], reduced to the range of the type. *)
Definition into_range (k : ikind) (z : Z) : Z := (imin k + (z - imin k) mod 2 ^ ibits k)%Z.
Definition float_to_int (wild : ikind -> spec_float -> Z) (k : ikind) (f : spec_float) : Z :=
  let other := into_range k (wild k f) in
  match f with
  | S754_zero _ => 0%Z
  | S754_finite neg m e =>
      let '(n, d) := ratio m e in
      let z := (if neg then - (n / d) else n / d)%Z in
      if in_range k z then z else other
  | _ => other
  end.
(** float32(x): infinite on overflow *)
Definition float32_of (f : spec_float) : spec_float :=
  match f with
  | S754_finite neg m e => let '(n, d) := ratio m e in
                           match nearest F32 neg n d with Some g => g | None => S754_infinity neg end
  | _ => f
  end.

(** Computations that work on the heap *)
Definition HM (A : Type) := heap -> heap * res A.
Definition hret {A} (a : A) : HM A := fun h => (h, Ok a).
Definition hlift {A} (r : res A) : HM A := fun h => (h, r).
Definition hbind {A B} (m : HM A) (f : A -> HM B) : HM B :=
  fun h => let '(h1, r) := m h in
           match r with Ok a => f a h1 | Err => (h1, Err) | Panic => (h1, Panic) end.
Notation "'let^' x ':=' m 'in' k" := (hbind m (fun x => k))
  (at level 200, x pattern, m at level 100, k at level 200, right associativity).
Fixpoint hfor {A} (l : list A) (body : A -> HM unit) : HM unit :=
  match l with
  | [] => hret tt
  | x :: r => let^ _ := body x in hfor r body
  end.
(** The loop with an index of Go's range *)
Definition numbered {A} (l : list A) : list (Z * A) := combine (zseq (List.length l)) l.

Definition number_of (j : json) : res spec_float :=
  match j with JNum t => of_opt (ParseFloat F64 t) | _ => Panic end.

(** One cell, json.go:340-490: [j] goes to column [ci] of row [ri].  [table] reads a nested
    table. *)
Definition set_json (wild : ikind -> spec_float -> Z) (table : list (string * json) -> HM ptr)
    (p : ptr) (ci ri : Z) (j : json) : HM unit :=
  let set vt v := on_heap p (SetTByColIndex vt ci ri v) in
  let^ ct := fun h => (h, match znth (ctypes (tab h p)) ci with Some ct => Ok ct | None => Panic end) in
  match j with
  | JStr s =>
      if ct =? "rune" then
        match decode s with Some (r, _) => set "rune" (VInt KInt32 r) | None => hlift Panic end
      else if ct =? "time.Time" then
        let^ t := hlift (of_opt (time_of_text s)) in set "time.Time" (VTime t)
      else if ct =? "string" then set "string" (VString s)
      else hlift Err
  | JNum _ =>
      let^ f := hlift (number_of j) in
      match int_kind ct with
      | Some k => set ct (VInt k (float_to_int wild k f))
      | None => if ct =? "float32" then set ct (VFloat32 (float32_of f))
                else if ct =? "float64" then set ct (VFloat64 f)
                else hlift Err
      end
  | JBool b => set "bool" (VBool b)
  | JArr l =>
      let^ fs := hlift (rmap number_of l) in
      set "[]byte" (VBytes (Some (map (fun f => chr (float_to_int wild KUint8 f)) fs)))
  | JObj m =>
      if ct =? "*Table" then let^ q := table m in SetTableByColIndex p ci ri (Some q)
      else hlift Err
  | JNull =>
      if ct =? "*Table" then let^ q := new_tab (ret tt) in SetTableByColIndex p ci ri (Some q)
      else hlift Err
  end.

(** One element of the metadata, json.go:310-328.  Simplification: of several members the last
    one counts; Go visits the members of a map in no fixed order. *)
Definition add_column (p : ptr) (j : json) : HM unit :=
  match j with
  | JObj m => match last m ("", JNull) with
              | (cn, JStr ct) => on_heap p (AppendCol cn ct)
              | _ => hlift Err
              end
  | _ => hlift Panic
  end.

Definition jget_arr (m : list (string * json)) (k : string) : option (list json) :=
  match jget m k with Some (JArr l) => Some l | _ => None end.

(** One row, json.go:338-495 *)
Definition add_row (wild : ikind -> spec_float -> Z) (table : list (string * json) -> HM ptr)
    (p : ptr) (ri : Z) (j : json) : HM unit :=
  let^ _ := on_heap p AppendRow in
  match j with
  | JArr cells =>
      hfor (numbered cells) (fun c =>
        match snd c with
        | JObj m => hfor m (fun kv => set_json wild table p (fst c) ri (snd kv))
        | _ => hlift Panic
        end)
  | _ => hlift Panic
  end.

(** newTableFromJSON_recursive, json.go:272-500.  [fuel] bounds the depth of the recursion; no value that
    json_value returns is nested deeper than max_depth. *)
Fixpoint newTableFromJSON_recursive (fuel : nat) (wild : ikind -> spec_float -> Z) (m : list (string * json)) : HM ptr :=
  match fuel with
  | O => hlift Panic
  | S fuel' =>
      let^ p := match jget m "tableName" with
                | Some (JStr n) => new_tab (SetName n)
                | _ => hlift Err
                end in
      let^ _ := match jget m "isStructShape" with
                | Some (JBool b) => on_heap p (SetStructShape b)
                | _ => hret tt
                end in
      let^ meta := hlift (of_opt (jget_arr m "metadata")) in
      let^ _ := hfor meta (add_column p) in
      match jget_arr m "data" with
      | None => hret p
      | Some data =>
          let^ _ := hfor (numbered data) (fun r => add_row wild (newTableFromJSON_recursive fuel' wild) p (fst r) (snd r)) in
          hret p
      end
  end.

(** The loop over the tables, json.go:612-631 *)
Fixpoint tables_from_json (wild : ikind -> spec_float -> Z) (l : list json) (s : tset) : HM tset :=
  match l with
  | [] => hret s
  | JObj m :: r =>
      let^ p := newTableFromJSON_recursive max_depth wild m in
      let^ s := fun h => let '(s', x) := AppendTable h s (Some p) in (h, let! _ := x in Ok s') in
      tables_from_json wild r s
  | _ :: _ => hlift Panic
  end.

(** NewTableSetFromJSON, json.go:571-633.  Tables made by a failing call are garbage. *)
Definition NewTableSetFromJSON (wild : ikind -> spec_float -> Z) (s : string) : HM tset :=
  if s =? "" then hlift Err
  else
    let^ m := hlift (of_opt (json_decode s)) in
    match jget m "tableSetName" with
    | Some (JStr n) =>
        match jget_arr m "tables" with
        | Some l => tables_from_json wild l (NewTableSet n)
        | None => hlift Err
        end
    | _ => hlift Err
    end.

(** NewTableFromJSON, json.go:635-661 *)
Definition NewTableFromJSON (wild : ikind -> spec_float -> Z) (s : string) : HM ref :=
  if s =? "" then hlift Err
  else
    let^ ts := NewTableSetFromJSON wild s in
    if negb (TableCount ts =? 1)%Z then hlift Err else hlift (GetTableByTableIndex ts 0).

(** NewTableFromJSONByTableName, json.go:663-676 *)
Definition NewTableFromJSONByTableName (wild : ikind -> spec_float -> Z) (s n : string) : HM ref :=
  let^ ts := NewTableSetFromJSON wild s in fun h => (h, GetTable h ts n).
