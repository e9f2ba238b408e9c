(** Spec_Copy.v -- vocabulary for the methods that copy from one table to another. *)
From Coq Require Import ZArith List String Bool.
From Verif Require Import Base Model_Names Model_Table Spec.
Import ListNotations.
Local Open Scope list_scope.

(** A table as the constructors leave it: well formed, with the given name, no sort
    keys, table shape and no parent. *)
Record fresh_table (name : string) (t' : table) : Prop := {
  ft_wf : wf_table t';
  ft_name : tname t' = name;
  ft_nil : is_nil t' = false;
  ft_keys : skeys t' = [];
  ft_shape : struct_shape t' = false;
  ft_parent : parent t' = None }.

(** The rows first..last of t, in order. *)
Definition row_range (t : table) (first last : Z) : list (list value) :=
  firstn (Z.to_nat (last - first + 1)) (skipn (Z.to_nat first) (rows t)).

(** Every column of f is a column of t with the same name and the same Go type. *)
Definition has_cols_of (t f : table) : Prop :=
  forall c cn ct, nth_error (cnames f) c = Some cn -> nth_error (ctypes f) c = Some ct ->
    exists i ct', nth_error (cnames t) i = Some cn /\ nth_error (ctypes t) i = Some ct' /\ same_go_type ct' ct.

(** A column present in both tables has the same type (written the same way) in both. *)
Definition shared_cols_agree (t f : table) : Prop :=
  forall i j cn ct ct', nth_error (cnames t) i = Some cn -> nth_error (ctypes t) i = Some ct ->
    nth_error (cnames f) j = Some cn -> nth_error (ctypes f) j = Some ct' -> ct = ct'.

(** t' is t with n rows added, row k of them holding row first+k of f in the columns
    the two tables share and zero values in the others. *)
Record rows_copied (fresh : ptr -> Prop) (t t' f : table) (first n : Z) : Prop := {
  rc_header : same_header t t';
  rc_count : RowCount t' = (RowCount t + n)%Z;
  rc_old : forall c r, (r < RowCount t)%Z -> GetValByColIndex t' c r = GetValByColIndex t c r;
  rc_shared : forall cn c c' k, col_at t c cn -> col_at f c' cn -> (0 <= k < n)%Z ->
    GetValByColIndex t' c (RowCount t + k) = GetValByColIndex f c' (first + k)
    /\ exists v, GetValByColIndex f c' (first + k) = Ok v;
  rc_others : forall cn ct c k, col_at t c cn -> ~ In cn (cnames f) -> (0 <= k < n)%Z ->
    nth_error (ctypes t) (Z.to_nat c) = Some ct ->
    exists v, GetValByColIndex t' c (RowCount t + k) = Ok v /\ zero_of fresh ct v }.

(** t' is t with the given columns added on the right, holding zero values. *)
Record cols_added (fresh : ptr -> Prop) (extra : list (string * string)) (t t' : table) : Prop := {
  ca_but : same_but_cols t t';
  ca_names : cnames t' = cnames t ++ map fst extra;
  ca_types : ctypes t' = ctypes t ++ map snd extra;
  ca_old : forall c r, (c < ColCount t)%Z -> GetValByColIndex t' c r = GetValByColIndex t c r;
  ca_new : forall c r ct, (ColCount t <= c)%Z -> nth_error (ctypes t') (Z.to_nat c) = Some ct -> (0 <= r < RowCount t)%Z ->
    exists v, GetValByColIndex t' c r = Ok v /\ zero_of fresh ct v }.

(** The columns (name, type) of f whose names are not columns of t, in order. *)
Definition new_columns (t f : table) : list (string * string) :=
  filter (fun p => if in_dec string_dec (fst p) (cnames t) then false else true) (combine (cnames f) (ctypes f)).
