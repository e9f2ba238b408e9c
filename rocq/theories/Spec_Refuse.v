(** Spec_Refuse.v -- texts that break the rules of Spec_Grammar, one mistake in each. *)
From Coq Require Import ZArith NArith List String Ascii Bool SpecFloat.
From Verif Require Import Base Model_Names Model_Table Model_Heap Model_Lex Model_Float Model_Parser Spec Spec_Text Spec_Decimal Spec_Time Spec_Document Spec_Grammar.
Import ListNotations.
Local Open Scope string_scope.
Local Open Scope list_scope.

(** A text that is no value of the type: a number that the type cannot hold, or a text that
    starts with a character no value of the type starts with, or another word than true or false,
    or a time with a day or an hour that does not exist *)
Inductive cell_wrong : string -> string -> Prop :=
  | cx_range ct k tok z : int_kind ct = Some k -> literal k tok z -> ~ fits k z -> cell_wrong ct tok
  | cx_float32 tok neg n d : number_text tok neg n d -> too_big 24 128 n d -> cell_wrong "float32" tok
  | cx_float64 tok neg n d : number_text tok neg n d -> too_big 53 1024 n d -> cell_wrong "float64" tok
  | cx_int ct k c r : int_kind ct = Some k -> is_dec c = false -> c <> "+"%char -> (isigned k = true -> c <> "-"%char) -> cell_wrong ct (String c r)
  | cx_string c r : c <> dquote -> cell_wrong "string" (String c r)
  | cx_bool tok : tok <> "" -> every is_word tok -> tok <> "true" -> tok <> "false" -> cell_wrong "bool" tok
  | cx_bytes ct c r : ct = "[]byte" \/ ct = "[]uint8" -> c <> "["%char -> cell_wrong ct (String c r)
  | cx_time tok : time_shaped tok -> (forall t, ~ time_written tok t) -> cell_wrong "time.Time" tok
  | cx_table c r : c <> "["%char -> cell_wrong "*Table" (String c r).

(** A row with a wrong cell, with too few cells or with too many *)
Inductive row_wrong : list string -> string -> Prop :=
  | rx_cell ct tok cts rest : cell_wrong ct tok -> rest = "" \/ (exists c r, rest = String c r /\ is_blank c = true) -> row_wrong (ct :: cts) (tok ++ rest)%string
  | rx_few ct tok c ct2 cts : cell_written ct tok c -> row_wrong (ct :: ct2 :: cts) tok
  | rx_many ct tok c gap d more : cell_written ct tok c -> blanks gap -> gap <> "" -> is_white d = false -> row_wrong [ct] (tok ++ gap ++ String d more)%string
  | rx_later ct tok c gap cts d more : cell_written ct tok c -> blanks gap -> gap <> "" -> is_white d = false -> row_wrong cts (String d more) ->
      row_wrong (ct :: cts) (tok ++ gap ++ String d more)%string.

(** The lines below the name of a table, up to the mistake.  A first line with a type as its
    second word is a table in struct shape. *)
Inductive body_wrong : list string -> Prop :=
  | bx_name ws names : words ws names -> Exists (fun w => ~ valid_name w) ws -> (forall w, nth_error ws 1 = Some w -> ~ In w all_types) -> body_wrong [names]
  | bx_no_types cns names : words cns names -> Forall valid_name cns -> body_wrong [names; ""]
  | bx_type cns names ws types : words cns names -> Forall valid_name cns -> words ws types -> Exists (fun w => ~ In w all_types) ws -> body_wrong [names; types]
  | bx_count cns names cts types : words cns names -> Forall valid_name cns -> words cts types -> List.length cts <> List.length cns -> body_wrong [names; types]
  | bx_same_name cns names cts types : words cns names -> Forall valid_name cns -> words cts types -> ~ NoDup cns -> body_wrong [names; types]
  | bx_row cns names cts types ls css bad : words cns names -> Forall valid_name cns -> NoDup cns -> words cts types -> Forall (fun ct => In ct all_types) cts ->
      List.length cns = List.length cts -> Forall2 (row_written cts) ls css -> row_wrong cts bad -> body_wrong (names :: types :: ls ++ [bad]).

(** The lines of a text, up to the mistake and whatever follows.  [used] are the names of the
    tables so far, [named] says whether the set has its name. *)
Inductive set_wrong : list string -> bool -> list string -> Prop :=
  | sx_blank used named ls : set_wrong used named ls -> set_wrong used named ("" :: ls)
  | sx_name used x ls : plain_name x -> set_wrong used true ls -> set_wrong used false (("[[" ++ x ++ "]]")%string :: ls)
  | sx_table used named d body ls : tdoc_ok d -> body_written d body -> ~ In (td_name d) used -> set_wrong (td_name d :: used) named ls ->
      set_wrong used named (("[" ++ td_name d ++ "]")%string :: body ++ "" :: ls)
  | sx_line used named c r ls : c <> "["%char -> set_wrong used named (String c r :: ls)
  | sx_twice used named n ls : plain_name n -> In n used -> set_wrong used named (("[" ++ n ++ "]")%string :: ls)
  | sx_two_names used x ls : plain_name x -> set_wrong used true (("[[" ++ x ++ "]]")%string :: ls)
  | sx_body used named n body ls : plain_name n -> ~ In n used -> body_wrong body -> set_wrong used named (("[" ++ n ++ "]")%string :: body ++ ls).
