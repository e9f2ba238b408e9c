(** Spec_Document.v -- which texts are table sets, and what they say. *)
From Coq Require Import ZArith NArith List String Ascii Bool SpecFloat.
From Verif Require Import Base Model_Names Model_Table Model_Heap Model_Lex Model_Float Model_Time Model_Parser Spec Spec_Text Spec_Decimal Spec_Time.
Import ListNotations.
Local Open Scope string_scope.
Local Open Scope list_scope.

(** ---------- lines ---------- *)

(** Every byte of [s] is in the class [f]. *)
Definition every (f : ascii -> bool) (s : string) : Prop := Forall (fun c => f c = true) (list_ascii_of_string s).
(** Space, tab, newline, form feed or return *)
Definition white (s : string) : Prop := every is_white s.
(** Spaces and tabs *)
Definition blanks (s : string) : Prop := every is_blank s.
Definition a_word (s : string) : Prop := s <> "" /\ every (fun c => negb (is_white c)) s.
Definition starts_white (s : string) : Prop := exists c r, s = String c r /\ is_white c = true.

(** The line is these words with white space between them. *)
Inductive words : list string -> string -> Prop :=
  | words_one w : a_word w -> words [w] w
  | words_more w gap ws s : a_word w -> white gap -> gap <> "" -> words ws s -> words (w :: ws) (w ++ gap ++ s)%string.

(** White space characters of Unicode *)
Inductive spacey : string -> Prop :=
  | sp_nil : spacey ""
  | sp_cons e s : In e space_encodings -> spacey s -> spacey (e ++ s).
Definition starts_with_space (s : string) : Prop := exists e r, In e space_encodings /\ s = (e ++ r)%string.
Definition ends_with_space (s : string) : Prop := exists e r, In e space_encodings /\ s = (r ++ e)%string.

Definition comment (line : string) : bool := match line with String c _ => Ascii.eqb c "#" | EmptyString => false end.
(** The lines that count: without the white space around them and without comment lines.  A
    comment on the last line counts as a blank line. *)
Fixpoint significant (ls : list string) : list string :=
  match ls with
  | [] => []
  | [l] => [if comment (TrimSpace l) then "" else TrimSpace l]
  | l :: r => if comment (TrimSpace l) then significant r else TrimSpace l :: significant r
  end.

(** ---------- cells ---------- *)

(** Numbers from 0 to 255 with one white space character between them, and a closing bracket *)
Inductive byte_numbers : string -> list Z -> Prop :=
  | bn_last w z : unsigned_literal w z -> (0 <= z < 256)%Z -> byte_numbers (w ++ "]") [z]
  | bn_more w z c s zs : unsigned_literal w z -> (0 <= z < 256)%Z -> is_white c = true -> byte_numbers s zs ->
      byte_numbers (w ++ String c s) (z :: zs).


(** What the text [tok] means in a column of type [ct] of the table [p], when [h] are the
    tables after reading. *)
Inductive denotes (h : heap) (p : ptr) : string -> string -> value -> Prop :=
  | den_int ct k tok z : int_kind ct = Some k -> literal k tok z -> fits k z -> denotes h p ct tok (VInt k z)
  | den_string tok s : Unquote tok = Some s -> denotes h p "string" tok (VString s)
  | den_true : denotes h p "bool" "true" (VBool true)
  | den_false : denotes h p "bool" "false" (VBool false)
  | den_no_bytes ct : ct = "[]byte" \/ ct = "[]uint8" -> denotes h p ct "[]" (VBytes (Some []))
  | den_bytes ct tok zs : ct = "[]byte" \/ ct = "[]uint8" -> byte_numbers tok zs ->
      denotes h p ct (String "[" tok) (VBytes (Some (map chr zs)))
  | den_rune body r : parseRune body = Some r -> denotes h p "rune" (String squote (body ++ String squote "")) (VInt KInt32 r)
  | den_float32 tok f : float_text 24 128 tok f -> denotes h p "float32" tok (VFloat32 f)
  | den_float64 tok f : float_text 53 1024 tok f -> denotes h p "float64" tok (VFloat64 f)
  | den_time tok t : time_written tok t -> denotes h p "time.Time" tok (VTime t)
  | den_table n q t : nth_error h q = Some t -> q <> p -> tname t = n -> is_nil t = false -> cnames t = [] -> rows t = [] ->
      parent t = Some p -> denotes h p "*Table" ("[" ++ n ++ "]") (VTable (Some q))
  | den_nil_table q t : nth_error h q = Some t -> q <> p -> is_nil t = true -> cnames t = [] -> rows t = [] ->
      parent t = Some p -> denotes h p "*Table" "[]" (VTable (Some q)).

(** The types whose cells may come after any text, which is ignored *)
Definition ignores_text_before (ct tok : string) : Prop :=
  ct = "rune" \/ ct = "time.Time" \/ ((ct = "float32" \/ ct = "float64") /\ tok = "NaN").

(** [line] is a row of the columns with the types [cts]: one text for each, blanks after it. *)
Inductive row_text (h : heap) (p : ptr) : list string -> string -> list value -> Prop :=
  | row_end : row_text h p [] "" []
  | row_cell ct cts junk tok gap rest v vs :
      denotes h p ct tok v -> junk = "" \/ ignores_text_before ct tok -> blanks gap -> row_text h p cts rest vs ->
      row_text h p (ct :: cts) (junk ++ tok ++ gap ++ rest)%string (v :: vs).

(** ---------- tables ---------- *)

(** A line of a table in struct shape that declares a column; [tail] follows *)
Definition column_line (cn ct tail line : string) : Prop :=
  exists gap, white gap /\ gap <> "" /\ a_word cn /\ a_word ct /\ line = (cn ++ gap ++ ct ++ tail)%string.
(** Text up to an equals sign, and the value of the cell *)
Definition value_tail (h : heap) (p : ptr) (ct mid tail : string) (v : value) : Prop :=
  exists sp data, starts_white mid /\ ~ In "="%char (list_ascii_of_string mid) /\ white sp /\
    tail = (mid ++ "=" ++ sp ++ data)%string /\ row_text h p [ct] data [v].

(** The lines of a table in struct shape after the first one, without and with values *)
Inductive more_columns : list string -> list string -> list string -> Prop :=
  | mc_end : more_columns [] [] []
  | mc_line cn ct tail line cns cts ls : column_line cn ct tail line -> tail = "" \/ starts_white tail ->
      more_columns cns cts ls -> more_columns (cn :: cns) (ct :: cts) (line :: ls).
Inductive more_values (h : heap) (p : ptr) : list string -> list string -> list value -> list string -> Prop :=
  | mv_end : more_values h p [] [] [] []
  | mv_line cn ct mid tail line v cns cts vs ls : column_line cn ct tail line -> value_tail h p ct mid tail v ->
      more_values h p cns cts vs ls -> more_values h p (cn :: cns) (ct :: cts) (v :: vs) (line :: ls).

(** What the lines below the name line say of the table [t], which is at [p]. *)
Inductive block (h : heap) (p : ptr) (t : table) : list string -> Prop :=
  | block_empty : struct_shape t = false -> cnames t = [] -> ctypes t = [] -> rows t = [] -> block h p t []
  | block_table names types ls : struct_shape t = false -> words (cnames t) names -> words (ctypes t) types ->
      Forall2 (row_text h p (ctypes t)) ls (rows t) -> block h p t (names :: types :: ls)
  | block_struct cn ct cns cts line ls : struct_shape t = true -> rows t = [] -> cnames t = cn :: cns -> ctypes t = ct :: cts ->
      column_line cn ct "" line -> more_columns cns cts ls -> block h p t (line :: ls)
  | block_values cn ct cns cts v vs mid tail line ls : struct_shape t = true -> rows t = [v :: vs] ->
      cnames t = cn :: cns -> ctypes t = ct :: cts ->
      column_line cn ct tail line -> value_tail h p ct mid tail v -> white mid ->
      more_values h p cns cts vs ls -> block h p t (line :: ls).

(** ---------- the whole text ---------- *)

(** [document h ls n os]: these lines are the name [n] of the table set (or none) and the tables [os]. *)
Inductive document (h : heap) : list string -> option string -> list ref -> Prop :=
  | doc_end : document h [] None []
  | doc_blank ls n os : document h ls n os -> document h ("" :: ls) n os
  | doc_name x ls os : document h ls None os -> document h (("[[" ++ x ++ "]]")%string :: ls) (Some x) os
  | doc_table p t body ls n os : nth_error h p = Some t -> block h p t body -> Forall (fun l => l <> "") body ->
      ls = [] \/ (exists ls', ls = "" :: ls') ->
      document h ls n os -> document h (("[" ++ tname t ++ "]")%string :: body ++ ls) n (Some p :: os)
  | doc_cut p t names cns : nth_error h p = Some t -> block h p t [] -> words cns names ->
      document h [("[" ++ tname t ++ "]")%string; names] None [Some p].
