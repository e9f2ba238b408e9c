(** Spec.v -- the vocabulary in which the properties are stated.
    Small, and independent of how the model computes. *)
From Coq Require Import ZArith NArith List String Ascii Bool SpecFloat Permutation.
From Verif Require Import Base Model_Names Model_Table.
Import ListNotations.
Local Open Scope string_scope.
Local Open Scope list_scope.

(** ---------- names (C17) ---------- *)

Definition between (lo hi : N) (c : ascii) : Prop := (lo <= N_of_ascii c <= hi)%N.

(** The name grammar.  Names are examined byte by byte as Latin-1 characters: the
    letters are a-z, A-Z and the Latin-1 letters, the numbers 0-9 and the Latin-1
    numbers (superscripts and fractions). *)
Definition latin1_letter (c : ascii) : Prop :=
  between 65 90 c \/ between 97 122 c \/ c = ascii_of_N 170 \/ c = ascii_of_N 181 \/ c = ascii_of_N 186 \/
  (between 192 255 c /\ c <> ascii_of_N 215 /\ c <> ascii_of_N 247).
Definition latin1_number (c : ascii) : Prop :=
  between 48 57 c \/ c = ascii_of_N 178 \/ c = ascii_of_N 179 \/ c = ascii_of_N 185 \/ between 188 190 c.
Definition name_start (c : ascii) : Prop := latin1_letter c \/ c = "_"%char.
Definition name_char (c : ascii) : Prop := name_start c \/ latin1_number c.
Definition valid_name (s : string) : Prop :=
  (exists c r, list_ascii_of_string s = c :: r /\ name_start c /\ Forall name_char r)
  /\ ~ In s all_types.

(** ---------- cells ---------- *)

(** [has_type ct v]: v is a non-nil Go value of the Go type written [ct]. *)
Definition has_type (ct : string) (v : value) : Prop :=
  match v with
  | VNil | VOther _ | VTable None => False
  | VBool _ => ct = "bool"
  | VString _ => ct = "string"
  | VInt KInt _ => ct = "int"
  | VInt KInt8 _ => ct = "int8"
  | VInt KInt16 _ => ct = "int16"
  | VInt KInt32 _ => ct = "int32" \/ ct = "rune"
  | VInt KInt64 _ => ct = "int64"
  | VInt KUint _ => ct = "uint"
  | VInt KUint8 _ => ct = "uint8" \/ ct = "byte"
  | VInt KUint16 _ => ct = "uint16"
  | VInt KUint32 _ => ct = "uint32"
  | VInt KUint64 _ => ct = "uint64"
  | VFloat32 _ => ct = "float32"
  | VFloat64 _ => ct = "float64"
  | VBytes _ => ct = "[]byte" \/ ct = "[]uint8"
  | VTable (Some _) => ct = "*Table"
  | VTime _ => ct = "time.Time"
  end.
Definition cell_ok (ct : string) (v : value) : Prop := has_type ct v /\ go_value v = true.

(** Two type names denote the same Go type. *)
Definition same_go_type (a b : string) : Prop :=
  a = b \/ (a = "byte" /\ b = "uint8") \/ (a = "uint8" /\ b = "byte")
  \/ (a = "[]byte" /\ b = "[]uint8") \/ (a = "[]uint8" /\ b = "[]byte")
  \/ (a = "rune" /\ b = "int32") \/ (a = "int32" /\ b = "rune").

(** ---------- well-formed tables (C01) ---------- *)

Record wf_table (t : table) : Prop := {
  wf_name : (is_nil t = false /\ valid_name (tname t))
            \/ (is_nil t = true /\ tname t = "" /\ cnames t = [] /\ rows t = []);
  wf_nodup : NoDup (cnames t);
  wf_colnames : Forall valid_name (cnames t);
  wf_types_len : List.length (ctypes t) = List.length (cnames t);
  wf_types : Forall (fun ct => In ct all_types) (ctypes t);
  wf_map : forall n i, mget (cmap t) n = Some i <-> nth_error (cnames t) i = Some n;
  wf_cells : Forall (Forall2 cell_ok (ctypes t)) (rows t) }.

(** ---------- zero values ---------- *)

(** [zero_of ct v]: v is the Go zero value of type ct (a []byte zero is an empty
    slice, the time zero is year 1 UTC); for "*Table" it is a pointer to a fresh
    NilTable, at an address of [fresh]. *)
Definition zero_of (fresh : ptr -> Prop) (ct : string) (v : value) : Prop :=
  match v with
  | VBool b => ct = "bool" /\ b = false
  | VString s => ct = "string" /\ s = ""
  | VInt k z => has_type ct v /\ z = 0%Z
  | VFloat32 f => ct = "float32" /\ f = S754_zero false
  | VFloat64 f => ct = "float64" /\ f = S754_zero false
  | VBytes o => (ct = "[]byte" \/ ct = "[]uint8") /\ o = Some []
  | VTime tm => ct = "time.Time" /\ tm = mkTime 0 0 0
  | VTable (Some p) => ct = "*Table" /\ fresh p
  | _ => False
  end.

(** ---------- what a caller can see of a table besides its cells ---------- *)

(** The table's name, column names and types, sort keys, shape, NilTable status
    and parent are the same. *)
Record same_header (t t' : table) : Prop := {
  sh_name : tname t' = tname t;
  sh_cols : cnames t' = cnames t;
  sh_types : ctypes t' = ctypes t;
  sh_keys : skeys t' = skeys t;
  sh_shape : struct_shape t' = struct_shape t;
  sh_nil : is_nil t' = is_nil t;
  sh_parent : parent t' = parent t }.

(** t' is t with the cell at column c, row r now reading v. *)
Record only_cell_changed (t t' : table) (c r : Z) (v : value) : Prop := {
  occ_header : same_header t t';
  occ_rows : RowCount t' = RowCount t;
  occ_here : GetValByColIndex t' c r = Ok v;
  occ_else : forall c' r', (c', r') <> (c, r) -> GetValByColIndex t' c' r' = GetValByColIndex t c' r' }.

(** The cell at column position c, row r exists and its type admits v. *)
Definition writable (t : table) (c r : Z) (v : value) : Prop :=
  (0 <= c)%Z /\ (0 <= r < RowCount t)%Z /\
  exists ct, nth_error (ctypes t) (Z.to_nat c) = Some ct /\ has_type ct v.

(** Column number [c] of the table is called [cn]. *)
Definition col_at (t : table) (c : Z) (cn : string) : Prop :=
  (0 <= c)%Z /\ nth_error (cnames t) (Z.to_nat c) = Some cn.

(** The NaN of a float type; None for other types. *)
Definition nan_of (ct : string) : option value :=
  if string_dec ct "float32" then Some (VFloat32 S754_nan)
  else if string_dec ct "float64" then Some (VFloat64 S754_nan) else None.

(** t' is t except that float cells in the addressed region [at_ c r] are now NaN. *)
Record nan_region (t t' : table) (at_ : Z -> Z -> Prop) : Prop := {
  nr_header : same_header t t';
  nr_rows : RowCount t' = RowCount t;
  nr_nan : forall c r ct v, (0 <= c < ColCount t)%Z -> (0 <= r < RowCount t)%Z -> at_ c r ->
    nth_error (ctypes t) (Z.to_nat c) = Some ct -> nan_of ct = Some v -> GetValByColIndex t' c r = Ok v;
  nr_other : forall c r ct, nth_error (ctypes t) (Z.to_nat c) = Some ct ->
    ~ at_ c r \/ nan_of ct = None -> GetValByColIndex t' c r = GetValByColIndex t c r }.

(** t' is t except that the cells in the addressed region now hold the zero value of
    their column type; nested tables there are fresh. *)
Record zero_region (t t' : table) (fresh : ptr -> Prop) (at_ : Z -> Z -> Prop) : Prop := {
  zr_header : same_header t t';
  zr_rows : RowCount t' = RowCount t;
  zr_zero : forall c r ct, (0 <= c < ColCount t)%Z -> (0 <= r < RowCount t)%Z -> at_ c r ->
    nth_error (ctypes t) (Z.to_nat c) = Some ct ->
    exists v, GetValByColIndex t' c r = Ok v /\ zero_of fresh ct v;
  zr_other : forall c r, ~ at_ c r -> GetValByColIndex t' c r = GetValByColIndex t c r }.

(** Everything but the columns and cells is the same. *)
Record same_but_cols (t t' : table) : Prop := {
  sbc_name : tname t' = tname t;
  sbc_keys : skeys t' = skeys t;
  sbc_shape : struct_shape t' = struct_shape t;
  sbc_nil : is_nil t' = is_nil t;
  sbc_parent : parent t' = parent t;
  sbc_rows : RowCount t' = RowCount t }.

(** The nested tables referenced from some rows, in order. *)
Definition nested_in (rs : list (list value)) : list ptr :=
  flat_map (flat_map (fun v => match v with VTable (Some p) => [p] | _ => [] end)) rs.
