(** Spec_StructText.v -- the tables in struct shape that the text keeps. *)
From Coq Require Import ZArith NArith List String Ascii Bool SpecFloat.
From Verif Require Import Base Model_Names Model_Table Model_Time Model_Lex Spec Spec_Text.
Import ListNotations.
Local Open Scope string_scope.

(** [r] is a Unicode code point that can stand between quotes [q] as it is: neither the quote,
    nor a backslash, nor a newline *)
Definition bare (q : Z) (r : Z) : Prop := unicode r /\ r <> q /\ r <> 92%Z /\ r <> 10%Z.

(** [s] is the UTF-8 encoding of a row of such code points *)
Definition bare_text (q : Z) (s : string) : Prop := exists rs, Forall (bare q) rs /\ s = String.concat "" (map encode rs).

(** A cell that the text of a struct keeps.  (Struct texts have no escapes, and integers and
    floats are written exactly.) *)
Definition struct_cell (ct : string) (v : value) : Prop :=
  match v with
  | VString s => bare_text 34 s
  | VInt KInt32 z => ct = "rune" -> bare 39 z
  | VFloat32 f | VFloat64 f => match f with S754_infinity _ => False | _ => True end
  | VTime t => plain_time t
  | _ => True
  end.

(** A table in struct shape with columns and at most one row *)
Definition struct_table (t : table) : Prop :=
  wf_table t /\ is_nil t = false /\ all_ascii_chars (tname t) /\ struct_shape t = true /\ (List.length (rows t) <= 1)%nat /\
  cnames t <> [] /\ Forall (fun ct => ct <> "*Table") (ctypes t) /\ Forall (Forall2 struct_cell (ctypes t)) (rows t).
