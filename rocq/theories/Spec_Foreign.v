(** Spec_Foreign.v -- what a user may expect of reading a document of unknown origin (C50). *)
From Coq Require Import ZArith NArith List String Ascii Bool SpecFloat Relations.
From Verif Require Import Base Model_Names Model_Table Model_Heap Model_TableSet Model_Lex Model_Json Model_Yaml Spec Spec_Heap Spec_Walk Spec_TableSet.
Import ListNotations.
Local Open Scope string_scope.
Local Open Scope list_scope.

(** The values of a document are Go values. *)
Fixpoint go_doc (y : ydoc) : Prop :=
  match y with
  | YUint z => in_range KUint64 z = true
  | YFloat f => valid_binary 53 1024 f = true
  | YTime t => go_value (VTime t) = true
  | YList l => fold_right (fun y P => go_doc y /\ P) True l
  | YMap m => fold_right (fun x P => go_doc (snd x) /\ P) True m
  | _ => True
  end.

(** Between [h] and [h'] no table has changed and none has disappeared. *)
Definition untouched (h h' : heap) : Prop := forall p, p < List.length h -> nth_error h' p = nth_error h p.

(** A table made between [h] and [h']: so are all tables nested in it, and none of them is nested in
    itself. *)
Definition all_new (h h' : heap) (p : ptr) : Prop :=
  (forall q, clos_refl_trans _ (nests h') p q -> List.length h <= q < List.length h') /\ ~ circular h' p.

(** Every table of the set is new, and their names differ. *)
Definition set_all_new (h h' : heap) (s : tset) : Prop :=
  NoDup (set_names h' s) /\ Forall (fun o => exists p : ptr, o = Some p /\ all_new h h' p) (ts_tables s).

(** ---------- what the document says ---------- *)

(** The columns of a table are those that a list of metadata names: each element is an object that
    maps the name of a column to its type. *)
Definition json_column (j : json) (c : string * string) : Prop :=
  exists m, j = JObj m /\ last m ("", JNull) = (fst c, JStr (snd c)).
Definition yaml_column (y : ydoc) (c : string * string) : Prop :=
  exists m ct, y = YMap m /\ last m ("", YNull) = (fst c, YStr ct) /\ snd c = trimQuote ct.

(** The table at p has the name, the columns and the number of rows of the object m. *)
Definition json_table (h : heap) (m : list (string * json)) (p : ptr) : Prop :=
  jget m "tableName" = Some (JStr (tname (tab h p)))
  /\ (exists meta, jget m "metadata" = Some (JArr meta) /\ Forall2 json_column meta (combine (cnames (tab h p)) (ctypes (tab h p))))
  /\ List.length (rows (tab h p)) = match jget m "data" with Some (JArr l) => List.length l | _ => 0 end.
Definition yaml_table (h : heap) (m : list (string * ydoc)) (p : ptr) : Prop :=
  yget m "tableName" = Some (YStr (tname (tab h p)))
  /\ (tname (tab h p) <> "" ->
      (exists meta, yget m "metadata" = Some (YList meta) /\ Forall2 yaml_column meta (combine (cnames (tab h p)) (ctypes (tab h p))))
      /\ List.length (rows (tab h p)) = match yget m "data" with Some (YList l) => List.length l | _ => 0 end).

(** ---------- the grammar of JSON (RFC 8259) ---------- *)

(** int = zero / ( digit1-9 *DIGIT ), frac = decimal-point 1*DIGIT, exp = e [ minus / plus ] 1*DIGIT *)
Local Open Scope string_scope.
Definition all_digits (s : string) : Prop := Forall (fun c => is_dec c = true) (list_ascii_of_string s).
Definition digits (s : string) : Prop := s <> "" /\ all_digits s.
Inductive int_text : string -> Prop :=
| int_zero : int_text "0"
| int_more c s : is_dec c = true -> c <> "0"%char -> all_digits s -> int_text (String c s).
Inductive fraction_text : string -> Prop :=
| frac_none : fraction_text ""
| frac_some s : digits s -> fraction_text (String "." s).
Inductive exp_text : string -> Prop :=
| exp_none : exp_text ""
| exp_some e sign s : e = "e"%char \/ e = "E"%char -> In sign [""; "+"; "-"] -> digits s -> exp_text (String e (sign ++ s)).
Definition number_text (t : string) : Prop :=
  exists sign a f e, In sign [""; "-"] /\ int_text a /\ fraction_text f /\ exp_text e /\ t = sign ++ a ++ f ++ e.

(** The text cannot go on with a number. *)
Definition no_number (rest : string) : Prop :=
  match rest with EmptyString => True | String c _ => is_dec c = false /\ one_of ".eE" c = false end.

(** The characters of a string up to its closing quote, and the bytes (UTF-8) that they stand for:
    characters as they are, escapes with a letter, escapes of a rune, escapes of a rune beyond
    65535 as a pair of surrogates. *)
Inductive literal : string -> string -> Prop :=
| lit_end : literal (String dquote "") ""
| lit_char r t s : valid_rune r = true -> (32 <= r)%Z -> r <> 34%Z -> r <> 92%Z -> literal t s -> literal (encode r ++ t) (encode r ++ s)
| lit_letter c z t s : In (c, z) [(dquote, 34); (bslash, 92); ("/", 47); ("b", 8); ("f", 12); ("n", 10); ("r", 13); ("t", 9)]%char%Z ->
    literal t s -> literal (String bslash (String c t)) (String (chr z) s)
| lit_u r t s : valid_rune r = true -> (0 <= r < 65536)%Z -> literal t s ->
    literal (String bslash (String "u" (hex 4 r)) ++ t) (encode r ++ s)
| lit_pair r t s : (65536 <= r <= 1114111)%Z -> literal t s ->
    literal (String bslash (String "u" (hex 4 (55296 + (r - 65536) / 1024))) ++
             String bslash (String "u" (hex 4 (56320 + (r - 65536) mod 1024))) ++ t) (encode r ++ s).
