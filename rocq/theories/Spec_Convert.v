(** Spec_Convert.v -- programs that convert a table from format to format (C66). *)
From Coq Require Import ZArith NArith List String Ascii Bool SpecFloat.
From Verif Require Import Base Model_Names Model_Table Model_Sort Model_Heap Model_TableSet Model_Lex Model_Float Model_Time Model_Parser Model_Print
  Model_Json Model_Yaml Model_Gob Spec Spec_Heap Spec_Equals Spec_Text Spec_Json Spec_Yaml Spec_Gob.
Import ListNotations.
Local Open Scope string_scope.
Local Open Scope list_scope.

(** ---------- the program ---------- *)

(** The formats a table can be written in and read from *)
Inductive format := AsUnpadded | AsPadded | AsJSON | AsYAML | AsGob.

(** What the conversions leave to others: which runes are printable, what Go makes of a float
    that is too large for an integer type, the YAML library and encoding/gob *)
Record outside := mkO { o_ip : Z -> bool; o_wild : ikind -> spec_float -> Z; o_yaml : yaml; o_gob : gob }.

(** Read what was written; an error of the writer is returned at once. *)
Definition then_read {A} (written : res A) (read : A -> HM ref) : HM ref :=
  fun h => match written with Ok x => read x h | Err => (h, Err) | Panic => (h, Panic) end.

(** Write the table at p in the format and read the text as a new table, in the same program.
    There is no YAML of a single table, so it is put alone in a set without a name. *)
Definition through (X : outside) (f : format) (p : ptr) : HM ref := fun h =>
  match f with
  | AsUnpadded => then_read (StringUnpadded (o_ip X) h (tab h p)) NewTableFromString h
  | AsPadded => then_read (StringPadded (o_ip X) h (tab h p)) NewTableFromString h
  | AsJSON => then_read (GetTableAsJSON (o_ip X) h (Some p)) (NewTableFromJSON (o_wild X)) h
  | AsYAML => then_read (GetTableSetAsYAML (o_yaml X) (S (List.length h)) h (mkTS "" "" [Some p]))
                (fun x => let^ s := NewTableSetFromYAML (o_yaml X) x in hlift (GetTableByTableIndex s 0)) h
  | AsGob => then_read (GobEncode (o_gob X) h (Some p)) (GobDecodeTable (o_gob X)) h
  end.

(** One format after the other; the first error ends the program. *)
Fixpoint chain (X : outside) (fs : list format) (p : ptr) : HM ref := fun h =>
  match fs with
  | [] => (h, Ok (Some p))
  | f :: fs' => match through X f p h with
                | (h', Ok (Some q)) => chain X fs' q h'
                | (h', r) => (h', r)
                end
  end.

(** ---------- the claim ---------- *)

(** The format alone keeps a table that has no nested tables: the conditions of C23, C24, C29,
    C30 and C32.  [text] says which strings the YAML library keeps. *)
Definition keeps_table (X : outside) (text : string -> Prop) (f : format) (t : table) : Prop :=
  match f with
  | AsUnpadded => unpadded_table t
  | AsPadded => padded_table t
  | AsJSON => json_text (o_ip X) (tname t) /\ Forall (json_text (o_ip X)) (cnames t)
              /\ Forall (Forall2 (json_value_ok (o_ip X)) (ctypes t)) (rows t)
  | AsYAML => text (tname t) /\ Forall text (cnames t) /\ Forall (Forall (yaml_value_ok text)) (rows t)
  | AsGob => skeys t = [] /\ Forall (Forall (fun v => gob_plain v = true)) (rows t)
  end.

(** The same name, columns and cells, but a nil slice may be an empty one and the other way round *)
Record same_data (t t' : table) : Prop := {
  sd_name : tname t' = tname t;
  sd_names : cnames t' = cnames t;
  sd_types : ctypes t' = ctypes t;
  sd_rows : Forall2 (Forall2 gob_cell) (rows t) (rows t');
  sd_nil : is_nil t' = is_nil t }.

(** The text formats write a table of struct shape that they keep in table shape. *)
Definition is_text (f : format) : bool := match f with AsUnpadded | AsPadded => true | _ => false end.
