(** Model_Indent.v -- json.Indent with an empty prefix and a tab, and the functions that use it. *)
From Coq Require Import ZArith List String Ascii Bool.
From Verif Require Import Base Model_Table Model_Heap Model_TableSet Model_Lex Model_Json.
Import ListNotations.
Local Open Scope list_scope.
Local Open Scope string_scope.

(** ---------- json.Indent (encoding/json, indent.go) ---------- *)

(** Where the scanner is: outside strings, in a string, behind a backslash in a string *)
Inductive place := Outside | Inside | Escaped.
(** [in_need]: an array or object was just opened and nothing is in it yet (needIndent);
    [in_begun]: a byte was written. *)
Record ind := mkI { in_place : place; in_need : bool; in_depth : nat; in_begun : bool }.
Fixpoint indent_tabs (n : nat) : string := match n with O => "" | S k => String (chr 9) (indent_tabs k) end.
Definition indent_line (n : nat) : string := String nl (indent_tabs n).

(** One byte.  White space outside strings is left out, except behind the whole value. *)
Definition indent_byte (i : ind) (c : ascii) : ind * string :=
  match in_place i with
  | Inside => (mkI (if Ascii.eqb c dquote then Outside else if Ascii.eqb c bslash then Escaped else Inside) (in_need i) (in_depth i) true, String c "")
  | Escaped => (mkI Inside (in_need i) (in_depth i) true, String c "")
  | Outside =>
      if json_space c then
        (i, if in_begun i && negb (in_need i) && Nat.eqb (in_depth i) 0 then String c "" else "")
      else
        let '(need, depth, pre) :=
          if in_need i && negb (Ascii.eqb c "]" || Ascii.eqb c "}") then (false, S (in_depth i), indent_line (S (in_depth i)))
          else (in_need i, in_depth i, "") in
        if Ascii.eqb c "[" || Ascii.eqb c "{" then (mkI Outside true depth true, pre ++ String c "")
        else if Ascii.eqb c "," then (mkI Outside need depth true, pre ++ String c (indent_line depth))
        else if Ascii.eqb c ":" then (mkI Outside need depth true, pre ++ String c " ")
        else if Ascii.eqb c "]" || Ascii.eqb c "}" then
          if need then (mkI Outside false depth true, pre ++ String c "")
          else (mkI Outside need (pred depth) true, pre ++ indent_line (pred depth) ++ String c "")
        else (mkI (if Ascii.eqb c dquote then Inside else Outside) need depth true, pre ++ String c "")
  end.
Fixpoint indent_bytes (i : ind) (s : string) : ind * string :=
  match s with
  | EmptyString => (i, "")
  | String c r => let '(i, a) := indent_byte i c in let '(i, b) := indent_bytes i r in (i, a ++ b)
  end.
(** The text must be one JSON value.  Simplification: whether it is one is decided before, by
    the grammar of the decoder (which runs the same scanner), not byte by byte. *)
Definition Indent (s : string) : option string :=
  match json_value max_depth (skip s) with
  | Some (_, r) => if skip r =? "" then Some (snd (indent_bytes (mkI Outside false 0 false) s)) else None
  | None => None
  end.

(** indentJSON, json.go:677-689 *)
Definition indentJSON (s : string) : res string := match Indent s with Some x => Ok x | None => Err end.
(** GetTableAsJSONIndent, json.go:244-258 *)
Definition GetTableAsJSONIndent (ip : Z -> bool) (h : heap) (o : ref) : res string :=
  let! s := GetTableAsJSON ip h o in indentJSON s.
(** GetTableSetAsJSONIndent, json.go:502-519 *)
Definition GetTableSetAsJSONIndent (ip : Z -> bool) (h : heap) (s : tset) : res string :=
  let! x := GetTableSetAsJSON ip h s in indentJSON x.
