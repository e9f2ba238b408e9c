(** Spec_Grammar.v -- how tables are written by hand: a grammar without the leniencies of the
    parser.  Spec_Document.v says what an accepted text means; this file says which texts
    must be accepted, and what they must give. *)
From Coq Require Import ZArith NArith List String Ascii Bool SpecFloat.
From Verif Require Import Base Model_Names Model_Table Model_Heap Model_Lex Model_Float Model_Time Model_TableSet Model_Parser Spec Spec_Text Spec_Decimal Spec_Time Spec_Document.
Import ListNotations.
Local Open Scope string_scope.
Local Open Scope list_scope.

(** ---------- characters of string and rune literals ---------- *)

(** One character between the quotes [q]: its text, its code, and its bytes in a string *)
Inductive character (q : ascii) : string -> Z -> string -> Prop :=
  | ch_ascii c : (code c < 128)%Z -> c <> q -> c <> bslash -> c <> nl -> character q (String c "") (code c) (String c "")
  | ch_utf8 r : (128 <= r)%Z -> unicode r -> character q (encode r) r (encode r)
  | ch_letter c v : In (c, v) [("a", 7); ("b", 8); ("f", 12); ("n", 10); ("r", 13); ("t", 9); ("v", 11)]%char%Z ->
      character q (String bslash (String c "")) v (String (chr v) "")
  | ch_quote : character q (String bslash (String q "")) (code q) (String q "")
  | ch_bslash : character q (String bslash (String bslash "")) 92 (String bslash "")
  | ch_hex s v : numeral 16 s v -> String.length s = 2 -> character q (String bslash (String "x" s)) v (String (chr v) "")
  | ch_octal s v : numeral 8 s v -> String.length s = 3 -> (v < 256)%Z -> character q (String bslash s) v (String (chr v) "")
  | ch_u s v : numeral 16 s v -> String.length s = 4 -> unicode v -> character q (String bslash (String "u" s)) v (encode v)
  | ch_U s v : numeral 16 s v -> String.length s = 8 -> unicode v -> character q (String bslash (String "U" s)) v (encode v).
Inductive characters (q : ascii) : string -> string -> Prop :=
  | chs_nil : characters q "" ""
  | chs_cons x v b y s : character q x v b -> characters q y s -> characters q (x ++ y) (b ++ s).

(** ---------- cells and rows ---------- *)

(** What is in a cell: a value, or the place of a nested table of that name (None: a NilTable) *)
Inductive cell := Value (v : value) | Place (n : option string).

(** A name of letters, digits and underscores of ASCII *)
Definition plain_name (n : string) : Prop := valid_name n /\ all_ascii_chars n.

Inductive cell_written : string -> string -> cell -> Prop :=
  | cw_int ct k tok z : int_kind ct = Some k -> literal k tok z -> fits k z -> cell_written ct tok (Value (VInt k z))
  | cw_string x s : characters dquote x s -> cell_written "string" (String dquote (x ++ String dquote "")) (Value (VString s))
  | cw_true : cell_written "bool" "true" (Value (VBool true))
  | cw_false : cell_written "bool" "false" (Value (VBool false))
  | cw_no_bytes ct : ct = "[]byte" \/ ct = "[]uint8" -> cell_written ct "[]" (Value (VBytes (Some [])))
  | cw_bytes ct tok zs : ct = "[]byte" \/ ct = "[]uint8" -> byte_numbers tok zs ->
      cell_written ct (String "[" tok) (Value (VBytes (Some (map chr zs))))
  | cw_rune x v b : character squote x v b -> cell_written "rune" (String squote (x ++ String squote "")) (Value (VInt KInt32 v))
  | cw_float32 tok neg n d f : number_text tok neg n d -> rounds 24 128 neg n d f -> cell_written "float32" tok (Value (VFloat32 f))
  | cw_float64 tok neg n d f : number_text tok neg n d -> rounds 53 1024 neg n d f -> cell_written "float64" tok (Value (VFloat64 f))
  | cw_nan32 : cell_written "float32" "NaN" (Value (VFloat32 S754_nan))
  | cw_nan64 : cell_written "float64" "NaN" (Value (VFloat64 S754_nan))
  | cw_time tok t : time_written tok t -> cell_written "time.Time" tok (Value (VTime t))
  | cw_table n : plain_name n -> cell_written "*Table" ("[" ++ n ++ "]") (Place (Some n))
  | cw_nil_table : cell_written "*Table" "[]" (Place None).

(** One text for every column, with blanks between them *)
Inductive row_written : list string -> string -> list cell -> Prop :=
  | rw_one ct tok c : cell_written ct tok c -> row_written [ct] tok [c]
  | rw_more ct tok c gap cts rest cs : cell_written ct tok c -> blanks gap -> gap <> "" -> row_written cts rest cs ->
      row_written (ct :: cts) (tok ++ gap ++ rest)%string (c :: cs).

(** ---------- tables ---------- *)

(** What is written of a table *)
Record tdoc := mkTD { td_name : string; td_names : list string; td_types : list string; td_rows : list (list cell); td_struct : bool }.
Definition tdoc_ok (d : tdoc) : Prop :=
  plain_name (td_name d) /\ Forall valid_name (td_names d) /\ NoDup (td_names d) /\
  Forall (fun ct => In ct all_types) (td_types d) /\ List.length (td_names d) = List.length (td_types d).

(** The lines of a table in struct shape, without and with values *)
Inductive columns_written : list string -> list string -> list string -> Prop :=
  | co_end : columns_written [] [] []
  | co_line cn ct gap cns cts ls : blanks gap -> gap <> "" -> columns_written cns cts ls ->
      columns_written (cn :: cns) (ct :: cts) ((cn ++ gap ++ ct)%string :: ls).
Inductive values_written : list string -> list string -> list cell -> list string -> Prop :=
  | va_end : values_written [] [] [] []
  | va_line cn ct c gap1 gap2 gap3 tok cns cts cs ls : blanks gap1 -> gap1 <> "" -> blanks gap2 -> gap2 <> "" -> blanks gap3 -> gap3 <> "" ->
      cell_written ct tok c -> values_written cns cts cs ls ->
      values_written (cn :: cns) (ct :: cts) (c :: cs) ((cn ++ gap1 ++ ct ++ gap2 ++ "=" ++ gap3 ++ tok)%string :: ls).

(** The lines below the name line *)
Inductive body_written (d : tdoc) : list string -> Prop :=
  | bw_empty : td_names d = [] -> td_rows d = [] -> td_struct d = false -> body_written d []
  | bw_table names types ls : td_struct d = false -> words (td_names d) names -> words (td_types d) types ->
      Forall2 (row_written (td_types d)) ls (td_rows d) -> body_written d (names :: types :: ls)
  | bw_struct ls : td_struct d = true -> td_rows d = [] -> td_names d <> [] -> columns_written (td_names d) (td_types d) ls -> body_written d ls
  | bw_values row ls : td_struct d = true -> td_rows d = [row] -> td_names d <> [] -> values_written (td_names d) (td_types d) row ls ->
      body_written d ls.

(** The lines of a table set: its name (or none) and its tables; a blank line ends a table *)
Inductive set_written : list string -> option string -> list tdoc -> Prop :=
  | sw_end : set_written [] None []
  | sw_blank ls n ds : set_written ls n ds -> set_written ("" :: ls) n ds
  | sw_name x ls ds : plain_name x -> set_written ls None ds -> set_written (("[[" ++ x ++ "]]")%string :: ls) (Some x) ds
  | sw_table d body ls n ds : tdoc_ok d -> body_written d body -> ls = [] \/ (exists ls', ls = "" :: ls') -> set_written ls n ds ->
      set_written (("[" ++ td_name d ++ "]")%string :: body ++ ls) n (d :: ds).

(** ---------- what must be read ---------- *)

(** The value [v] of a cell of the table [p] is as written; a nested table is a new table
    without columns, and its parent is [p]. *)
Definition cell_read (h0 h : heap) (p : ptr) (c : cell) (v : value) : Prop :=
  match c with
  | Value x => v = x
  | Place o => exists (q : ptr) t, v = VTable (Some q) /\ List.length h0 <= q /\ q <> p /\ nth_error h q = Some t /\
      cnames t = [] /\ rows t = [] /\ parent t = Some p /\
      match o with Some n => tname t = n /\ is_nil t = false | None => is_nil t = true end
  end.
Definition table_read (h0 h : heap) (d : tdoc) (o : ref) : Prop :=
  exists (p : ptr) t, o = Some p /\ List.length h0 <= p /\ nth_error h p = Some t /\ is_nil t = false /\
    tname t = td_name d /\ cnames t = td_names d /\ ctypes t = td_types d /\ struct_shape t = td_struct d /\
    Forall2 (Forall2 (cell_read h0 h p)) (td_rows d) (rows t).

(** The same content in two heaps *)
Definition same_cell (h1 h2 : heap) (v1 v2 : value) : Prop :=
  v1 = v2 \/
  exists (q1 q2 : ptr) t1 t2, v1 = VTable (Some q1) /\ v2 = VTable (Some q2) /\ nth_error h1 q1 = Some t1 /\ nth_error h2 q2 = Some t2 /\
    cnames t1 = [] /\ cnames t2 = [] /\ rows t1 = [] /\ rows t2 = [] /\ is_nil t1 = is_nil t2 /\ (is_nil t1 = false -> tname t1 = tname t2).
Definition same_table (h1 h2 : heap) (o1 o2 : ref) : Prop :=
  exists (p1 p2 : ptr) t1 t2, o1 = Some p1 /\ o2 = Some p2 /\ nth_error h1 p1 = Some t1 /\ nth_error h2 p2 = Some t2 /\
    tname t1 = tname t2 /\ cnames t1 = cnames t2 /\ ctypes t1 = ctypes t2 /\ struct_shape t1 = struct_shape t2 /\
    Forall2 (Forall2 (same_cell h1 h2)) (rows t1) (rows t2).
