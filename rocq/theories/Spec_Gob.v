(** Spec_Gob.v -- what is assumed of Go's encoding/gob, and what a round trip keeps. *)
From Coq Require Import ZArith NArith List String Ascii Bool.
From Verif Require Import Base Model_Names Model_Table Model_Sort Model_Ops Model_Heap Model_TableSet Model_Gob Spec.
Import ListNotations.
Local Open Scope list_scope.

(** The same value, except that gob does not tell a nil []byte from an empty one. *)
Definition gob_cell (v w : value) : Prop :=
  v = w \/ match v, w with
           | VBytes (Some []), VBytes None | VBytes None, VBytes (Some []) => True
           | _, _ => False
           end.

(** The value has a type that is registered with gob: the basic types and []byte are, *Table
    and time.Time are not. *)
Definition gob_plain (v : value) : bool :=
  match v with
  | VBool _ | VString _ | VInt _ _ | VFloat32 _ | VFloat64 _ | VBytes _ => true
  | _ => false
  end.

(** The same exported table: the map as a map (the order of its entries is lost). *)
Record gob_like (e e' : exported) : Prop := {
  gl_name : e_name e' = e_name e;
  gl_names : e_names e' = e_names e;
  gl_types : e_types e' = e_types e;
  gl_map : forall n, mget (e_map e') n = mget (e_map e) n;
  gl_rows : Forall2 (Forall2 gob_cell) (e_rows e) (e_rows e');
  gl_keys : e_keys e' = e_keys e;
  gl_shape : e_shape e' = e_shape e }.

(** The contract of encoding/gob: an exported table whose cells all have registered types is
    encoded, and decoding gives it back; one with a cell of another type is an error; headers
    are encoded and given back. *)
Record gob_ok (C : gob) : Prop := {
  gob_trip : forall e, Forall (Forall (fun v => gob_plain v = true)) (e_rows e) ->
    exists b e', gob_encode C e = Ok b /\ gob_decode C b = Ok e' /\ gob_like e e';
  gob_unregistered : forall e, ~ Forall (Forall (fun v => gob_plain v = true)) (e_rows e) -> gob_encode C e = Err;
  gob_header : forall x, exists b, gob_encode_header C x = Ok b /\ gob_decode_header C b = Ok x }.

(** The table t' is a faithful copy of t: the same name, columns, shape and number of rows, and
    the same cells by position and by column name; it has no sort keys. *)
Record gob_same (t t' : table) : Prop := {
  gs_name : tname t' = tname t;
  gs_nil : is_nil t' = is_nil t;
  gs_cols : forall c, ColName t' c = ColName t c /\ ColTypeByColIndex t' c = ColTypeByColIndex t c;
  gs_types : forall n, ColType t' n = ColType t n /\ ColIndex t' n = ColIndex t n;
  gs_count : ColCount t' = ColCount t /\ RowCount t' = RowCount t;
  gs_cells : forall c r v, GetValByColIndex t c r = Ok v -> exists w, GetValByColIndex t' c r = Ok w /\ gob_cell v w;
  gs_named : forall n r v, GetVal t n r = Ok v -> exists w, GetVal t' n r = Ok w /\ gob_cell v w;
  gs_shape : struct_shape t' = struct_shape t;
  gs_keys : skeys t' = [] }.
